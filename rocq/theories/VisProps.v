(* C113 to C117: the image steps and flattening. *)
From Coq Require Import QArith ZifyBool ZifyNat.
From Verif Require Import Prelude VisModel VisSpec VisProofs.
Local Open Scope nat_scope.
Local Open Scope list_scope.

(* C113: reordering channels keeps every value of every pixel, in the requested layout. *)
Theorem C113_same_pixels : forall (V : Type) f L D (a : nd V) n h w c px,
  holds f L a n h w c px -> recognisable f L n w c ->
  holds (after f) D (channels_order (Some D) a) n h w c px.
Proof.
  intros V f L D a n h w c px H R. destruct (prepared V f L a n h w c px H R) as (a4 & P & H4).
  unfold channels_order. rewrite P. apply leaves; [|intros E; subst f; apply H].
  destruct L, D; cbn [layout_eqb]; [exact H4|now apply to_nhwc|now apply to_nchw|exact H4].
Qed.
(* C113: an array that is not a batch of images or an image, or an unknown order, comes back as is. *)
Theorem C113_untouched : forall (V : Type) order (a : nd V),
  order = None \/ (length (shape a) <> 3 /\ length (shape a) <> 4) \/
  (exists n d h w, shape a = [n; d; h; w] /\ ~ 1 <= d <= 4 /\ ~ 1 <= w <= 4) ->
  channels_order order a = a.
Proof.
  intros V order a H. unfold channels_order.
  destruct (prepare a) as [[[a4 single] cur]|] eqn:P; [|reflexivity].
  destruct order as [D|]; [|reflexivity]. exfalso. destruct H as [H|[[H3 H4]|(n & d & h & w & S & H1 & H2)]]; [discriminate| |].
  - unfold prepare in P. destruct (length (shape a)) as [|[|[|[|[|?]]]]]; try discriminate; congruence.
  - unfold prepare in P. rewrite S in P. cbn [length infer_4d] in P.
    destruct (memN d [1; 2; 3; 4]) eqn:M1; [apply memN4 in M1; contradiction|].
    destruct (memN w [1; 2; 3; 4]) eqn:M2; [apply memN4 in M2; contradiction|]. discriminate.
Qed.
(* C113: there and back again, when the width also passes in the channels-first layout. *)
Theorem C113_round_trip : forall (V : Type) f L (a : nd V) n h w c px,
  f <> Grey -> holds f L a n h w c px -> recognisable f NCHW n w c ->
  holds f L (channels_order (Some L) (channels_order (Some NCHW) a)) n h w c px /\
  holds f L (channels_order (Some L) (channels_order (Some NHWC) a)) n h w c px.
Proof.
  intros V f L a n h w c px G H R.
  assert (RL : forall L', recognisable f L' n w c).
  { intros L'. destruct f; [| |contradiction]; destruct R as [R1 R2]; split; auto. }
  assert (A : after f = f) by (destruct f; [reflexivity|reflexivity|contradiction]).
  assert (T : forall D, holds f L (channels_order (Some L) (channels_order (Some D) a)) n h w c px).
  { intros D. rewrite <- A. apply (C113_same_pixels V f D L); [|apply RL].
    rewrite <- A. apply (C113_same_pixels V f L D); [exact H|apply RL]. }
  split; apply T.
Qed.
Example C113_case :
  let a := {| shape := [2; 8; 8; 3]; at_ := fun i => i |} in
  holds Batch NHWC a 2 8 8 3 (fun i y x k => [i; y; x; k]) /\ recognisable Batch NHWC 2 8 3 /\
  shape (channels_order (Some NCHW) a) = [2; 3; 8; 8] /\
  at_ (channels_order (Some NCHW) a) [1; 2; 5; 7] = [1; 5; 7; 2].
Proof.
  cbv zeta. split; [split; [reflexivity|intros; reflexivity]|]. split; [split; [lia|discriminate]|]. split; reflexivity.
Qed.
Example C113_grey_case :
  let a := {| shape := [5; 28; 28]; at_ := fun i => i |} in
  holds Grey NCHW a 5 28 28 1 (fun i y x k => [i; y; x]) /\ recognisable Grey NCHW 5 28 1.
Proof. cbv zeta. split; [repeat split|]. cbn. lia. Qed.
(* C113 does not extend to narrow channels-first images: a batch of RGB images of width 4 asked for
   channels-last comes back unchanged, so its values are not where they should be. *)
Theorem C113_narrow_refuted :
  exists (a : nd (list nat)) n h w c px, holds Batch NCHW a n h w c px /\ c = 3 /\
    ~ holds Batch NHWC (channels_order (Some NHWC) a) n h w c px.
Proof.
  exists {| shape := [2; 3; 4; 4]; at_ := fun i => i |}, 2, 4, 4, 3, (fun i y x k => [i; k; y; x]).
  split; [split; [reflexivity|intros; reflexivity]|]. split; [reflexivity|].
  intros [S _]. vm_compute in S. discriminate.
Qed.
(* C113 does not extend to every number of grey images: four of them are taken for one image of four
   channels. *)
Theorem C113_grey_count_refuted :
  exists (a : nd (list nat)) px, holds Grey NCHW a 4 28 28 1 px /\
    shape (channels_order (Some NHWC) a) = [28; 28; 4] /\
    forall n, n <> 1 -> n <> 3 -> n <> 4 ->
      shape (channels_order (Some NHWC) {| shape := [n; 28; 28]; at_ := fun i : list nat => i |}) = [n; 28; 28; 1].
Proof.
  exists {| shape := [4; 28; 28]; at_ := fun i => i |}, (fun i y x k => [i; y; x]).
  split; [repeat split|]. split; [reflexivity|]. intros n N1 N3 N4.
  assert (H : holds Batch NHWC (channels_order (Some NHWC) {| shape := [n; 28; 28]; at_ := fun i : list nat => i |}) n 28 28 1 (fun i y x k => [i; y; x])).
  { apply (C113_same_pixels _ Grey NCHW NHWC); [repeat split|cbn; lia]. }
  apply H.
Qed.

(* C114: with a requested number of channels that is not negative, every image keeps its first
   channels, a single channel is repeated, and missing channels are zero. *)
Theorem C114_channels : forall (V : Type) (zero : V) num f L a n h w c px,
  (0 <= num)%Z -> holds f L a n h w c px -> recognisable f L n w c ->
  holds (after f) L (ensure_num_channels zero num a) n h w (Z.to_nat num)
    (fun i y x k => if Nat.eqb c 1 then px i y x 0 else if Nat.ltb k c then px i y x k else zero).
Proof.
  intros V zero num f L a n h w c px NN H R. destruct (prepared V f L a n h w c px H R) as (a4 & P & H4).
  unfold ensure_num_channels. rewrite P. apply leaves; [|intros E; subst f; apply H].
  destruct H4 as [S A]. rewrite S, nth_channel.
  destruct (Z.eqb_spec num (Z.of_nat c)) as [->|N1].
  - rewrite Nat2Z.id. apply (holds_ext V L a4 n h w c px); [|split; assumption].
    intros i y x k Hi Hy Hx Hk. destruct (Nat.eqb_spec c 1) as [->|]; [now replace k with 0 by lia|].
    destruct (Nat.ltb_spec k c); [reflexivity|lia].
  - destruct (Nat.eqb c 1 && (1 <? num)%Z) eqn:B1.
    + apply andb_true_iff in B1. destruct B1 as [B1 B2]. apply Nat.eqb_eq in B1. subst c.
      split; [cbn [shape]; rewrite set_channel; f_equal; lia|].
      intros i y x k Hi Hy Hx Hk. cbn [at_]. rewrite nth_channel, set_channel, Nat.div_small by exact Hk.
      cbn [Nat.eqb]. apply A; lia.
    + destruct (Z.ltb_spec num (Z.of_nat c)) as [B2|B2].
      * destruct (Z.ltb_spec num 0); [lia|]. split; [cbn [shape]; apply set_channel|].
        intros i y x k Hi Hy Hx Hk. cbn [at_]. rewrite A by lia.
        destruct (Nat.eqb_spec c 1) as [->|]; [now replace k with 0 by lia|].
        destruct (Nat.ltb_spec k c); [reflexivity|lia].
      * split; [cbn [shape]; apply set_channel|]. intros i y x k Hi Hy Hx Hk. cbn [at_]. rewrite nth_channel.
        destruct (Nat.eqb_spec c 1) as [->|]; [exfalso; cbn [Nat.eqb andb] in B1; lia|].
        destruct (Nat.ltb_spec k c); [apply A; lia|reflexivity].
Qed.
Example C114_case :
  let a := {| shape := [8; 8; 1]; at_ := fun i => i |} in
  holds Single NHWC a 1 8 8 1 (fun i y x k => [y; x; k]) /\ recognisable Single NHWC 1 8 1 /\
  shape (ensure_num_channels [] 3 a) = [8; 8; 3] /\ at_ (ensure_num_channels [] 3 a) [5; 6; 2] = [5; 6; 0].
Proof.
  cbv zeta. split; [split; [reflexivity|split; [reflexivity|intros y x k _ _ _; reflexivity]]|].
  split; [split; [lia|discriminate]|]. split; reflexivity.
Qed.
(* C114 does not extend to every number of grey images: asking for three channels drops one image out
   of four. *)
Theorem C114_grey_count_refuted :
  exists (a : nd (list nat)) px, holds Grey NCHW a 4 28 28 1 px /\
    shape (ensure_num_channels [] 3 a) = [3; 28; 28].
Proof. exists {| shape := [4; 28; 28]; at_ := fun i => i |}, (fun i y x k => [i; y; x]). repeat split. Qed.

(* C115: resizing a picture of whole numbers from 0 to 255: each pixel of the result is the pixel of
   the input at the grid positions; the grid stays inside the image, keeps the order, starts at the
   first row and ends at the last; a side that already has the requested size is not changed. *)
Definition sampling_grid (grid : nat -> nat -> nat -> nat) : Prop :=
  forall h out, 0 < h ->
    (forall k, k < out -> grid h out k < h) /\
    (forall k k', k <= k' -> k' < out -> grid h out k <= grid h out k') /\
    (0 < out -> grid h out 0 = 0) /\ (2 <= out -> grid h out (out - 1) = h - 1) /\
    (out = h -> forall k, k < out -> grid h out k = k).
Theorem C115_resize : forall grid f L a n h w c px H W,
  sampling_grid grid -> (0 <= H)%Z -> (0 <= W)%Z -> 0 < h -> 0 < w ->
  (forall i y x k, i < n -> y < h -> x < w -> k < c -> exists z, px i y x k = inject_Z z /\ (0 <= z <= 255)%Z) ->
  holds f L a n h w c px -> recognisable f L n w c ->
  exists out, resize grid H W a = Ok out /\
    holds (after f) L out n (Z.to_nat H) (Z.to_nat W) c
      (fun i y x k => px i (grid h (Z.to_nat H) y) (grid w (Z.to_nat W) x) k).
Proof.
  intros grid f L a n h w c px H W G NH NW Ph Pw U8 Ho R.
  destruct (prepared Q f L a n h w c px Ho R) as (a4 & P & H4).
  assert (U : forall i y x k, i < n -> y < h -> x < w -> k < c -> to_uint8 (px i y x k) = px i y x k).
  { intros i y x k Hi Hy Hx Hk. destruct (U8 i y x k Hi Hy Hx Hk) as (z & -> & Z1). unfold to_uint8, trunc.
    cbn [inject_Z Qnum Qden]. rewrite Z.quot_1_r, Z.mod_small by lia. reflexivity. }
  set (nhwc := match L with NCHW => transpose [0; 2; 3; 1] a4 | NHWC => a4 end).
  assert (HN : holds Batch NHWC nhwc n h w c px) by (unfold nhwc; destruct L; [now apply to_nhwc|exact H4]).
  assert (RZ : exists o, resize_nhwc grid nhwc H W = Ok o /\
      holds Batch NHWC o n (Z.to_nat H) (Z.to_nat W) c
       (fun i y x k => px i (grid h (Z.to_nat H) y) (grid w (Z.to_nat W) x) k)).
  { destruct HN as [S A]. unfold resize_nhwc. rewrite S. cbn [index nth].
    destruct (G h (Z.to_nat H) Ph) as (G1 & G2 & G3 & G4 & G5). destruct (G w (Z.to_nat W) Pw) as (K1 & K2 & K3 & K4 & K5).
    destruct ((Z.of_nat h =? H)%Z && (Z.of_nat w =? W)%Z) eqn:B.
    - apply andb_true_iff in B. destruct B as [B1 B2]. apply Z.eqb_eq in B1, B2. subst H W. rewrite !Nat2Z.id in *.
      exists nhwc. split; [reflexivity|]. split; [exact S|]. intros i y x k Hi Hy Hx Hk.
      rewrite G5, K5 by (assumption || reflexivity). now apply A.
    - replace ((H <? 0)%Z || (W <? 0)%Z) with false by lia.
      destruct (Nat.eqb_spec h 0); [lia|]. destruct (Nat.eqb_spec w 0); [lia|]. cbn [andb orb].
      eexists. split; [reflexivity|]. split; [reflexivity|].
      intros i y x k Hi Hy Hx Hk. cbn [at_ index nth set_axis firstn skipn app]. apply A; auto. }
  destruct RZ as (o & RZ & HO). unfold resize. rewrite P. fold nhwc. rewrite RZ. cbn [bind].
  eexists. split; [reflexivity|].
  set (px' := fun i y x k => px i (grid h (Z.to_nat H) y) (grid w (Z.to_nat W) x) k) in *.
  set (back := match L with NCHW => transpose [0; 3; 1; 2] o | NHWC => o end).
  assert (HB : holds Batch L back n (Z.to_nat H) (Z.to_nat W) c px') by (unfold back; destruct L; [now apply to_nchw|exact HO]).
  assert (HL : holds (after f) L (leave (match f with Single => true | _ => false end) back) n (Z.to_nat H) (Z.to_nat W) c px')
    by (apply leaves; [exact HB|intros E; subst f; apply Ho]).
  assert (V8 : forall i y x k, i < n -> y < Z.to_nat H -> x < Z.to_nat W -> k < c -> to_uint8 (px' i y x k) = px' i y x k).
  { intros i y x k Hi Hy Hx Hk. unfold px'. apply U; [exact Hi|apply G; assumption|apply G; assumption|exact Hk]. }
  destruct f; cbn [after holds] in HL |- *; cbn [shape at_].
  - destruct HL as [S A]. split; [exact S|]. intros i y x k Hi Hy Hx Hk. rewrite A by assumption. now apply V8.
  - destruct HL as (-> & S & A). split; [reflexivity|]. split; [exact S|]. intros y x k Hy Hx Hk. rewrite A by assumption. apply V8; auto.
  - destruct HL as [S A]. split; [exact S|]. intros i y x k Hi Hy Hx Hk. rewrite A by assumption. now apply V8.
Qed.
(* the grid with exact division meets the hypothesis *)
Definition exact_grid (h out k : nat) : nat := k * (h - 1) / (out - 1).
Example C115_case :
  sampling_grid exact_grid /\
  exists out, resize exact_grid 2 3 {| shape := [1; 4; 6; 1]; at_ := fun i => inject_Z (Z.of_nat (10 * nth 1 i 0 + nth 2 i 0)) |} = Ok out /\
    shape out = [1; 2; 3; 1] /\ at_ out [0; 1; 1; 0] = inject_Z 32.
Proof.
  split.
  - intros h out Ph. unfold exact_grid. split; [|split; [|split; [|split]]].
    + intros k Hk. destruct (Nat.eq_dec out 1) as [->|N]; [cbn; rewrite ?Nat.sub_diag; cbn; lia|].
      apply Nat.div_lt_upper_bound; [lia|]. nia.
    + intros k k' L L'. destruct (Nat.eq_dec out 1) as [->|N]; [replace k' with 0 by lia; replace k with 0 by lia; lia|].
      apply Nat.div_le_mono; [lia|nia].
    + intros _. cbn. destruct (out - 1) eqn:E; [reflexivity|apply Nat.div_0_l; lia].
    + intros H2. rewrite Nat.mul_comm. apply Nat.div_mul. lia.
    + intros -> k Hk. destruct (Nat.eq_dec h 1) as [->|N]; [cbn; lia|]. apply Nat.div_mul. lia.
  - eexists. split; [vm_compute; reflexivity|]. split; vm_compute; reflexivity.
Qed.
(* C115 does not extend to images with values between 0 and 1: every pixel becomes 0, even when the
   image already has the requested size. *)
Theorem C115_fractions_refuted : forall grid n h w px,
  (forall i, (0 <= px i < 1)%Q) -> ~ 1 <= w <= 4 ->
  exists out, resize grid (Z.of_nat h) (Z.of_nat w) {| shape := [n; h; w; 3]; at_ := px |} = Ok out /\
    shape out = [n; h; w; 3] /\ forall i, at_ out i = 0%Q.
Proof.
  intros grid n h w px PX W.
  set (a := {| shape := [n; h; w; 3]; at_ := px |}).
  assert (P : prepare a = Some (a, false, NHWC)).
  { unfold prepare. cbn [a shape length infer_4d]. change (memN 3 [1; 2; 3; 4]) with true.
    destruct (memN h [1; 2; 3; 4]); reflexivity. }
  unfold resize. rewrite P. unfold resize_nhwc. cbn [a shape nth]. rewrite !Z.eqb_refl. cbn [andb bind].
  eexists. split; [reflexivity|]. split; [reflexivity|]. intros i. cbn [at_ leave].
  unfold to_uint8, trunc. destruct (PX i) as [P0 P1]. unfold Qle in P0. unfold Qlt in P1. cbn [inject_Z Qnum Qden] in P0, P1. change (at_ a i) with (px i).
  rewrite Z.quot_small by lia. reflexivity.
Qed.

(* C116: normalisation with as many means and deviations as channels: the same images with each
   channel shifted and scaled by its own numbers. *)
Theorem C116_normalize : forall mean std f L a n h w c px,
  length mean = c -> length std = c ->
  holds f L a n h w c px -> recognisable f L n w c ->
  exists out, normalize mean std a = Ok out /\
    holds (after f) L out n h w c (fun i y x k => ((px i y x k - nth k mean 0) / nth k std 0)%Q).
Proof.
  intros mean std f L a n h w c px Lm Ls H R. destruct (prepared Q f L a n h w c px H R) as (a4 & P & H4).
  unfold normalize. rewrite P. destruct H4 as [S A]. rewrite S, nth_channel, Lm, Ls, Nat.eqb_refl. cbn [negb].
  cbn [orb negb]. eexists. split; [reflexivity|].
  apply leaves; [|intros E; subst f; apply H]. split.
  - cbn [shape]. rewrite set_channel. destruct (Nat.eqb_spec c 1) as [->|]; reflexivity.
  - intros i y x k Hi Hy Hx Hk. cbn [at_]. rewrite nth_channel, set_channel.
    destruct (Nat.eqb_spec c 1) as [->|N].
    + replace k with 0 by lia. rewrite A by lia. reflexivity.
    + rewrite A by assumption. reflexivity.
Qed.
(* C116: when it returns: std as long as mean, and a length equal to the number of channels, or one of
   the two equal to 1. *)
Theorem C116_returns : forall mean std f L a n h w c px,
  holds f L a n h w c px -> recognisable f L n w c ->
  ((exists out, normalize mean std a = Ok out) <->
   length std = length mean /\ (length mean = c \/ c = 1 \/ length mean = 1)).
Proof.
  intros mean std f L a n h w c px H R. destruct (prepared Q f L a n h w c px H R) as (a4 & P & [S _]).
  unfold normalize. rewrite P, S, nth_channel.
  destruct (Nat.eqb_spec (length std) (length mean)) as [E|E]; cbn [negb].
  - destruct (Nat.eqb_spec c (length mean)), (Nat.eqb_spec c 1), (Nat.eqb_spec (length mean) 1); cbn [orb negb];
      split; intros X; try (destruct X as (o & X); discriminate); try lia; try (eexists; reflexivity).
  - split; [intros (o & X); discriminate|lia].
Qed.
Example C116_case :
  let a := {| shape := [2; 8; 8; 3]; at_ := fun i => inject_Z (Z.of_nat (nth 3 i 0)) |} in
  holds Batch NHWC a 2 8 8 3 (fun i y x k => inject_Z (Z.of_nat k)) /\ recognisable Batch NHWC 2 8 3 /\
  exists out, normalize [1; 0; 0]%Q [1; 2; 4]%Q a = Ok out /\ Qeq (at_ out [1; 5; 6; 2]) (1 # 2).
Proof.
  cbv zeta. split; [split; [reflexivity|intros; reflexivity]|]. split; [split; [lia|discriminate]|].
  eexists. split; [vm_compute; reflexivity|]. vm_compute. reflexivity.
Qed.
(* C116 does not extend to "the number of channels never changes": the default three means turn a
   grey image into one of three channels. *)
Theorem C116_grey_refuted :
  exists a n h w px out, holds Batch NHWC a n h w 1 px /\
    normalize [(485 # 1000); (456 # 1000); (406 # 1000)]%Q [(229 # 1000); (224 # 1000); (225 # 1000)]%Q a = Ok out /\
    shape out = [n; h; w; 3].
Proof.
  exists {| shape := [2; 8; 8; 1]; at_ := fun _ => 0%Q |}, 2, 8, 8, (fun _ _ _ _ => 0%Q). eexists.
  split; [split; [reflexivity|intros; reflexivity]|]. split; [vm_compute; reflexivity|]. reflexivity.
Qed.

(* C117: squeezing an axis, counted from the front or from the back, of a four dimensional array:
   an axis of length 1 is removed and nothing else happens; otherwise the array comes back as is; an
   axis that does not exist is refused. *)
Theorem C117_squeeze : forall (V : Type) (a : nd V) before d behind dim,
  shape a = before ++ d :: behind -> length (shape a) = 4 ->
  (dim = Z.of_nat (length before) \/ dim = - Z.of_nat (length (d :: behind)))%Z ->
  (d = 1 -> exists out, squeeze dim a = Ok out /\ shape out = before ++ behind /\
     forall il ir, length il = length before -> at_ out (il ++ ir) = at_ a (il ++ 0 :: ir)) /\
  (d <> 1 -> squeeze dim a = Ok a).
Proof.
  intros V a before d behind dim S L D. rewrite S, app_length in L. cbn [length] in L, D. unfold squeeze.
  rewrite S, app_length. cbn [length]. replace (length before + Datatypes.S (length behind) =? 4) with true by lia.
  replace ((dim <? -4)%Z || (3 <? dim)%Z) with false by lia.
  set (ax := Z.to_nat _). assert (A : ax = length before) by (unfold ax; destruct (Z.ltb_spec dim 0); lia). clearbody ax. subst ax.
  rewrite nth_middle. split.
  - intros ->. eexists. split; [reflexivity|]. cbn [shape at_]. split.
    + rewrite firstn_app, Nat.sub_diag, firstn_O, firstn_all, app_nil_r. f_equal.
      change (1 :: behind) with ([1] ++ behind). rewrite app_assoc, skipn_app, app_length. cbn [length].
      rewrite Nat.add_1_r, Nat.sub_diag, skipn_all2 by (rewrite app_length; cbn; lia). reflexivity.
    + intros il ir E. rewrite <- E, firstn_app, Nat.sub_diag, firstn_O, firstn_all, app_nil_r.
      rewrite skipn_app, Nat.sub_diag, skipn_all. reflexivity.
  - intros N. destruct (Nat.eqb_spec d 1); [contradiction|reflexivity].
Qed.
Theorem C117_squeeze_range : forall (V : Type) (a : nd V) dim,
  length (shape a) = 4 -> ((dim < -4 \/ 3 < dim)%Z <-> squeeze dim a = Err IndexError).
Proof.
  intros V a dim L. unfold squeeze. rewrite L. cbn [Nat.eqb].
  destruct ((dim <? -4)%Z || (3 <? dim)%Z) eqn:B.
  - split; [reflexivity|lia].
  - split; [lia|]. destruct (Nat.eqb _ 1); discriminate.
Qed.
Theorem C117_squeeze_other : forall (V : Type) (a : nd V) dim, length (shape a) <> 4 -> squeeze dim a = Ok a.
Proof. intros V a dim N. unfold squeeze. destruct (Nat.eqb_spec (length (shape a)) 4); [contradiction|reflexivity]. Qed.
(* C117: the two dimensional array made of an array with at least one row: one row per row, and the
   columns of a row are the cells of that row, each exactly once, with the last axis fastest. *)
Theorem C117_flatten : forall (rest : list nat),
  (forall idx, inside idx rest -> row_major idx rest < cells rest) /\
  (forall idx idx', inside idx rest -> inside idx' rest -> row_major idx rest = row_major idx' rest -> idx = idx') /\
  (forall j, j < cells rest -> exists idx, inside idx rest /\ row_major idx rest = j) /\
  forall (V : Type) features raw (x : nd V) n,
    (features = Some x \/ (features = None /\ raw = x)) -> shape x = n :: rest -> 0 < n ->
    exists out, ensure_2d features (Some raw) false = Ok out /\ shape out = [n; cells rest] /\
      forall i idx, inside idx rest -> at_ out [i; row_major idx rest] = at_ x (i :: idx).
Proof.
  intros rest. split; [|split; [|split]].
  - intros idx I. now apply ravel_bound.
  - intros idx idx' I I' Q. rewrite <- (unravel_row_major idx rest I), <- (unravel_row_major idx' rest I'). now rewrite Q.
  - intros j Hj. destruct (unravel_inside rest j Hj) as [I R]. eauto.
  - intros V features raw x n X S N.
    assert (E : (match features with Some f => f | None => raw end) = x).
    { destruct X as [->|[-> ->]]; reflexivity. }
    assert (PL : forall out, shape out = [n; cells rest] ->
       (forall i j, j < cells rest -> at_ out [i; j] = at_ x (i :: unravel rest j)) ->
       shape out = [n; cells rest] /\ forall i idx, inside idx rest -> at_ out [i; row_major idx rest] = at_ x (i :: idx)).
    { intros out So A. split; [exact So|]. intros i idx I. rewrite A by now apply ravel_bound. now rewrite unravel_row_major. }
    unfold ensure_2d. rewrite E, S. destruct rest as [|d [|d' rest]].
    + eexists. split; [reflexivity|]. apply PL; [reflexivity|]. intros i j Hj. reflexivity.
    + exists x. split; [reflexivity|]. apply PL.
      * rewrite S. cbn. now rewrite Nat.mul_1_r.
      * intros i j Hj. cbn [unravel fold_right]. now rewrite Nat.div_1_r.
    + destruct (Nat.eqb_spec n 0); [lia|]. eexists. split; [reflexivity|]. apply PL; [reflexivity|]. intros i j Hj. reflexivity.
Qed.
(* C117: scalars and object arrays are refused. *)
Theorem C117_refusals : forall (V : Type) features (raw : nd V),
  (forall x, (features = Some x \/ (features = None /\ raw = x)) -> shape x = [] -> forall o, ensure_2d features (Some raw) o = Err PreprocessError) /\
  (forall out, ensure_2d features (Some raw) true = Ok out -> False) /\
  (forall o, ensure_2d features None o = @Err (nd V) KeyError).
Proof.
  intros V features raw. split; [|split; [|reflexivity]].
  - intros x X S o. assert (E : (match features with Some f => f | None => raw end) = x) by (destruct X as [->|[-> ->]]; reflexivity).
    unfold ensure_2d. rewrite E, S. reflexivity.
  - intros out. unfold ensure_2d. destruct (shape _) as [|n [|d [|d' r]]]; try discriminate. destruct (Nat.eqb n 0); discriminate.
Qed.
Example C117_case :
  exists out, ensure_2d None (Some {| shape := [2; 3; 2]; at_ := fun i => i |}) false = Ok out /\
    shape out = [2; 6] /\ at_ out [1; 5] = [1; 2; 1].
Proof. eexists. split; [reflexivity|]. split; reflexivity. Qed.
Example C117_squeeze_case :
  exists out, squeeze (-1) {| shape := [5; 8; 8; 1]; at_ := fun i => i |} = Ok out /\
    shape out = [5; 8; 8] /\ at_ out [4; 2; 3] = [4; 2; 3; 0].
Proof. eexists. split; [reflexivity|]. split; reflexivity. Qed.
(* C117 does not extend to an empty batch of images, nor to a store that has features.X but not raw.X. *)
Theorem C117_empty_refuted : exists x : nd nat,
  shape x = [0; 3; 4] /\ ensure_2d None (Some x) false = Err ValueError /\
  ensure_2d (Some {| shape := [2; 2]; at_ := fun _ => 0 |}) None false = Err KeyError.
Proof. exists {| shape := [0; 3; 4]; at_ := fun _ => 0 |}. repeat split. Qed.

Print Assumptions C113_same_pixels.
Print Assumptions C113_untouched.
Print Assumptions C113_round_trip.
Print Assumptions C113_narrow_refuted.
Print Assumptions C113_grey_count_refuted.
Print Assumptions C114_channels.
Print Assumptions C114_grey_count_refuted.
Print Assumptions C115_resize.
Print Assumptions C115_fractions_refuted.
Print Assumptions C116_normalize.
Print Assumptions C116_returns.
Print Assumptions C116_grey_refuted.
Print Assumptions C117_squeeze.
Print Assumptions C117_squeeze_range.
Print Assumptions C117_squeeze_other.
Print Assumptions C117_flatten.
Print Assumptions C117_refusals.
Print Assumptions C117_empty_refuted.
