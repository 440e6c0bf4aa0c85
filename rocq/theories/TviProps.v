(* C165: the torchvision image encoder. *)
From Coq Require Import QArith Lia ZifyBool ZifyNat.
From Verif Require Import Prelude ListFacts BundleProofs TviModel TviSpec TviProofs.
Local Open Scope Z_scope.
Local Open Scope list_scope.
Local Notation length := List.length.

Section Props.
Variable expected : option nat.
Variable rep : bool.
Variable features : tensor -> list Q.
Hypothesis features_ok : forall t u, same_picture t u -> features t = features u.

(* A list of images of one size: row i holds the features of image i, whatever the batch size. *)
Theorem C165_images bs l ts : 0 < bs -> Forall2 (shown expected rep) l ts -> (forall t u, In t ts -> In u ts -> alike t u) -> encode_list expected rep features bs l = Ok (map features ts).
Proof.
  intros Hb HF Ha; unfold encode_list; destruct l as [|x l]; [inversion HF; reflexivity|]; destruct (Z.leb_spec bs 0); [lia|].
  assert (P : exists us, Forall2 (fun x t => prepare expected rep x = Ok t) (x :: l) us /\ Forall2 same_picture us ts).
  { clear - HF; revert HF; generalize (x :: l); intros l0 HF; induction HF as [|y t l0 ts Hy _ IH]; [exists []; split; constructor|]; destruct IH as (us & H1 & H2); destruct (prepare_ok _ _ _ _ Hy) as (u & Hu & Hs); exists (u :: us); split; constructor; assumption. }
  destruct P as (us & H1 & H2); assert (A : forall t, In t us -> exists u, In u ts /\ alike t u).
  { clear - H2; induction H2 as [|a b l l' H _ IH]; [intros t []|]; intros t [<-|It]; [exists b; split; [left; reflexivity|apply H]|destruct (IH t It) as (u & Iu & Hu); exists u; split; [right; exact Iu|exact Hu]]. }
  rewrite (batches_ok expected rep features (length (x :: l)) (Z.to_nat bs) (x :: l) us); [|lia|lia|exact H1|].
  - f_equal; clear - H2 features_ok; induction H2 as [|a b l l' H _ IH]; [reflexivity|cbn; rewrite (features_ok a b H), IH; reflexivity].
  - intros t u It Iu; destruct (A t It) as (t' & It' & (A1 & A2 & A3)); destruct (A u Iu) as (u' & Iu' & (B1 & B2 & B3)); destruct (Ha t' u' It' Iu') as (C1 & C2 & C3); repeat split; congruence.
Qed.
(* Whenever it succeeds, on images of any sizes: one row per image, its features. *)
Theorem C165_rows bs l out : encode_list expected rep features bs l = Ok out ->
  exists ts, Forall2 (shown expected rep) l ts /\ out = map features ts /\ length out = length l.
Proof.
  unfold encode_list; destruct l as [|x l]; [intros [= <-]; exists []; repeat split; constructor|]; destruct (Z.leb_spec bs 0); [discriminate|]; intros E.
  apply batches_spec in E; [|lia|lia]; destruct E as (ts & HF & ->); exists ts; split; [|split; [reflexivity|rewrite map_length; symmetry; exact (Forall2_length _ _ _ HF)]].
  clear - HF; revert HF; generalize (x :: l); intros l0 HF; induction HF as [|y t l0 ts Hy _ IH]; constructor; [apply prepare_spec; exact Hy|exact IH].
Qed.
(* Images that stand for no picture, or whose channels the model cannot take, are refused with the whole data set. *)
Theorem C165_refused bs l x : In x l -> (~ exists t, shown expected rep x t) -> exists e, encode_list expected rep features bs l = Err e.
Proof.
  intros I N; destruct (encode_list expected rep features bs l) as [out|e] eqn:E; [|exists e; reflexivity]; apply C165_rows in E; destruct E as (ts & HF & _); exfalso; apply N.
  clear - HF I; induction HF as [|y t l ts Hy _ IH]; [destruct I|]; destruct I as [<-|I]; [exists t; exact Hy|exact (IH I)].
Qed.
(* Arrays of four dimensions are stacks of images; so are those of three of which neither the first nor the last can be channels. *)
Theorem C165_stacks bs : (forall n a b c f, encode_array expected rep features bs (A4 n a b c f) = encode_list expected rep features bs (map (fun i => A3 a b c (f i)) (seq 0 n))) /\
  (forall n h w f, ~ few n -> ~ few w -> encode_array expected rep features bs (A3 n h w f) = encode_list expected rep features bs (map (fun i => A2 h w (f i)) (seq 0 n))).
Proof.
  split; [reflexivity|]; intros n h w f Hn Hw; apply channels_not in Hn, Hw; unfold encode_array, split_samples, is_single; rewrite Hn, Hw; reflexivity.
Qed.
(* Finding: a stack of 1, 3 or 4 gray images, or of gray images of width 1, 3 or 4, is taken as one image: at most one row. *)
Theorem C165_stack_refuted bs n h w f out : few n \/ few w -> encode_array expected rep features bs (A3 n h w f) = Ok out -> length out = 1%nat.
Proof.
  intros H E; assert (S : split_samples (A3 n h w f) = [A3 n h w f]) by (unfold split_samples, is_single; destruct (channels n) eqn:Cn, (channels w) eqn:Cw; try reflexivity; apply channels_not in Cn, Cw; destruct H; contradiction).
  unfold encode_array in E; rewrite S in E; apply C165_rows in E; destruct E as (ts & _ & _ & L); exact L.
Qed.
(* Finding: an image with the channels first whose width is 1, 3 or 4 is read with its rows as channels and its columns exchanged. *)
Theorem C165_narrow_refuted c h w f c' h' w' g : few w -> stands_for (A3 c h w f) c' h' w' g -> c' = w /\ h' = c /\ w' = h /\ forall k i j, g k i j = f i j k.
Proof. intros Hw H; inversion H; subst; [repeat split|contradiction]. Qed.
(* No images give no rows whatever the batch size; otherwise a batch size of zero or less is refused. *)
Theorem C165_batch_size bs l : bs <= 0 -> encode_list expected rep features bs l = match l with [] => Ok [] | _ => Err ValueError end.
Proof. intros H; unfold encode_list; destruct l; [reflexivity|]; destruct (Z.leb_spec bs 0); [reflexivity|lia]. Qed.
End Props.

(* ---- examples *)
Definition tvx_features (t : tensor) : list Q := [t_at t 0%nat 0%nat 0%nat; t_at t 2%nat 0%nat 1%nat; inject_Z (Z.of_nat (t_h t))].
Example tvx_ok : forall t u, same_picture t u -> tvx_features t = tvx_features u.
Proof. intros t u ((_ & E & _) & H); unfold tvx_features; now rewrite !H, E. Qed.
Definition tvx_gray (q : Q) : array := A2 5 6 (fun i j => q + inject_Z (Z.of_nat j))%Q.
Definition tvx_shown (q : Q) : tensor := {| t_c := 3; t_h := 5; t_w := 6; t_at := fun _ i j => (q + inject_Z (Z.of_nat j))%Q |}.
Example tvx_list : Forall2 (shown (Some 3%nat) true) [tvx_gray 1; tvx_gray 2; tvx_gray 3] [tvx_shown 1; tvx_shown 2; tvx_shown 3].
Proof. repeat (apply Forall2_cons; [exists 1%nat, 5%nat, 6%nat; eexists; split; [apply gray|split; [reflexivity|split; [reflexivity|right; repeat split; reflexivity]]]|]); constructor. Qed.
Example tvx_run : encode_list (Some 3%nat) true tvx_features 2 [tvx_gray 1; tvx_gray 2; tvx_gray 3] = Ok (map tvx_features [tvx_shown 1; tvx_shown 2; tvx_shown 3]).
Proof. reflexivity. Qed.
(* three gray images in one array: one row; five: five rows *)
Example tvx_three : let f := fun n i j : nat => inject_Z (Z.of_nat n) in
  (exists r, encode_array (Some 3%nat) true tvx_features 2 (A3 3 5 6 f) = Ok [r]) /\ (exists out, encode_array (Some 3%nat) true tvx_features 2 (A3 5 5 6 f) = Ok out /\ length out = 5%nat).
Proof. split; eexists; [|split]; reflexivity. Qed.
Example tvx_refused : ~ exists t, shown (Some 3%nat) true (A3 7 5 6 (fun _ _ _ => 0%Q)) t.
Proof. intros (t & c & h & w & f & H & _); inversion H; subst; unfold few in *; lia. Qed.

Print Assumptions C165_images.
Print Assumptions C165_rows.
Print Assumptions C165_refused.
Print Assumptions C165_stacks.
Print Assumptions C165_stack_refuted.
Print Assumptions C165_narrow_refuted.
Print Assumptions C165_batch_size.
