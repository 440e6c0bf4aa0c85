(* The vocabulary in which SimCLRv2 is stated. *)
From Coq Require Import QArith Permutation.
From Verif Require Import Prelude QFacts DeepBatchModel DeepBatchSpec DeepLossSpec CoMatchSpec DasoSpec ClrModel.
Local Open Scope Q_scope.
Local Open Scope list_scope.

(* ------------------------------------------------------------------ losses *)
(* the other view of the same row, when rows 0..n-1 are one view and rows n..2n-1 the other *)
Definition other_view (n i : nat) : nat := if Nat.ltb i n then (i + n)%nat else (i - n)%nat.
(* how similar rows i and j are: a row is not compared to itself *)
Definition alike (norm : list Q -> Q) (t : Q) (z : list (list Q)) (i j : nat) : Q :=
  if Nat.eqb i j then - (1000000000) else cosine norm (nth i z []) (nth j z []) / t.
(* - log of the share of the other view among everything row i is compared to *)
Definition contrast_row (lse : list Q -> Q) (norm : list Q -> Q) (t : Q) (n : nat) (z : list (list Q)) (i : nat) : Q :=
  lse (map (alike norm t z i) (seq 0 (2 * n))) - alike norm t z i (other_view n i).
(* logsumexp depends on the values only, not on their order *)
Definition lse_ok (lse : list Q -> Q) : Prop := forall a b, Permutation a b -> lse a == lse b.
Definition pick {A} (l : list (list A)) (order : list nat) : list (list A) := map (fun i => nth i l []) order.

(* ------------------------------------------------------------------ settings *)
Definition clr_numbers_ok (cfg : clr_config) : Prop :=
  (0 < cl_b cfg)%Z /\ (0 <= cl_pe cfg)%Z /\ (0 <= cl_fe cfg)%Z /\ (0 <= cl_de cfg)%Z /\ (0 < cl_pe cfg + cl_fe cfg + cl_de cfg)%Z /\ 0 <= cl_alpha cfg <= 1 /\ 0 < cl_temp cfg /\ 0 < cl_dtemp cfg.
Definition clr_data_ok (cfg : clr_config) (n_l : nat) (n_w n_s : option nat) : Prop :=
  ((0 < cl_pe cfg)%Z \/ (0 < cl_de cfg)%Z -> exists n, n_w = Some n /\ (0 < n)%nat /\ (n_s = None \/ n_s = Some n)) /\
  ((0 < cl_fe cfg)%Z \/ cl_labelled cfg = true -> (0 < n_l)%nat).
(* the bundle that is pretrained, and the one that is fine-tuned and teaches *)
Definition first_of (a b : option bundle) : option bundle := match a with None => b | _ => a end.
Definition pretrained (cfg : clr_config) : option bundle := if (0 <? cl_pe cfg)%Z then first_of (cl_pre cfg) (cl_fine cfg) else None.
Definition tuned (cfg : clr_config) : option bundle := if (0 <? cl_fe cfg + cl_de cfg)%Z then first_of (cl_fine cfg) (pretrained cfg) else None.
Definition clr_bundles_ok (cfg : clr_config) : Prop :=
  ((0 < cl_pe cfg)%Z -> pretrained cfg <> None) /\ ((0 < cl_fe cfg)%Z \/ (0 < cl_de cfg)%Z -> tuned cfg <> None).
(* a student is another model than its teacher *)
Definition clr_student_ok (shares : nat -> nat -> bool) (cfg : clr_config) : Prop :=
  forall s f, (0 < cl_de cfg)%Z -> cl_student cfg = Some s -> tuned cfg = Some f -> b_model s <> b_model f /\ shares (b_model s) (b_model f) = false.
(* the bundle whose model was trained last *)
Definition last_trained (cfg : clr_config) : option bundle :=
  if (0 <? cl_de cfg)%Z then first_of (cl_student cfg) (tuned cfg) else if (0 <? cl_fe cfg)%Z then tuned cfg else pretrained cfg.

(* the batches of a stage with this many epochs: every epoch has [steps] batches, which use the rows evenly *)
Definition plan (n : nat) (b epochs steps : Z) (batches : list (list nat)) : Prop :=
  exists es k, batches = concat es /\ lenZ es = epochs /\ just_enough (Z.of_nat n) b k /\
    Forall (fun bs => lenZ bs = steps /\ Forall (proper_batch n b) bs /\ even_use n k steps bs) es.

(* ------------------------------------------------------------------ stages *)
Section Stages.
Context {M : Type}.
Definition unchanged (h h' : heap M) : Prop := forall m, h' m = h m.
(* the model of b is moved by f for every element of l, every other model keeps its weights *)
Definition moved {A} (b : bundle) (f : M -> A -> M) (l : list A) (h h' : heap M) : Prop :=
  c_frozen (h (b_model b)) = false /\ h' (b_model b) = {| c_weights := fold_left f l (c_weights (h (b_model b))); c_frozen := false |} /\
  forall m, m <> b_model b -> h' m = h m.
Variable logits : nat -> bool -> M -> view -> list nat -> list (list Q).
Variable optim : nat -> M -> objective -> M.
Variable load : M -> M -> option M.
Variable binds : nat -> bool.
Variable softmax : list Q -> list Q.
Variable cfg : clr_config.
Definition per_pass (n : nat) (k : Z) : Prop := just_enough (Z.of_nat n) (cl_b cfg) k.

Definition pretrains (n_u : nat) (h h' : heap M) : Prop :=
  match pretrained cfg with
  | None => unchanged h h'
  | Some b => exists k bs, per_pass n_u k /\ plan n_u (cl_b cfg) (cl_pe cfg) k bs /\ moved b (fun w idx => optim (b_id b) w (Contrast idx)) bs h h'
  end.
Definition transfers (h h' : heap M) : Prop :=
  match pretrained cfg, tuned cfg with
  | Some p, Some f =>
      if cl_transfer cfg && negb (Nat.eqb (b_id p) (b_id f)) then
        (exists w, load (c_weights (h (b_model f))) (c_weights (h (b_model p))) = Some w /\ c_weights (h' (b_model f)) = w /\ c_frozen (h' (b_model f)) = c_frozen (h (b_model f))) /\
        forall m, m <> b_model f -> h' m = h m
      else unchanged h h'
  | _, _ => unchanged h h'
  end.
Definition tunes (n_l : nat) (h h' : heap M) : Prop :=
  match (if (0 <? cl_fe cfg)%Z then tuned cfg else None) with
  | None => unchanged h h'
  | Some b => exists k bs, per_pass n_l k /\ plan n_l (cl_b cfg) (cl_fe cfg) k bs /\ moved b (fun w il => optim (b_id b) w (Supervised il)) bs h h'
  end.
(* soft targets: the softmax of the logits, divided by the temperature *)
Definition soft (l : list (list Q)) : list (list Q) := map (fun r => softmax (map (fun x => x / cl_dtemp cfg) r)) l.
(* the batches of distillation: as many steps as both sides need *)
Definition distil_plan (n_l n_u : nat) (steps : list (list nat * option (list nat))) : Prop :=
  exists ku, per_pass n_u ku /\
  if cl_labelled cfg then
    exists kl ls, per_pass n_l kl /\ plan n_u (cl_b cfg) (cl_de cfg) (Z.max ku kl) (map fst steps) /\ plan n_l (cl_b cfg) (cl_de cfg) (Z.max ku kl) ls /\ map snd steps = map Some ls
  else plan n_u (cl_b cfg) (cl_de cfg) ku (map fst steps) /\ Forall (fun s => snd s = None) steps.
(* distillation: the student follows the teacher's targets on the weak view.  Without a student bundle the model learns from
   itself as it was at the start - or as it is, in training mode, if the functions of its bundle are not methods of the model *)
Definition distils (n_l n_u : nat) (h h' : heap M) : Prop :=
  match (if (0 <? cl_de cfg)%Z then tuned cfg else None) with
  | None => unchanged h h'
  | Some f =>
      exists steps, distil_plan n_l n_u steps /\
      let start := c_weights (h (b_model f)) in
      let follow := fun (student : bundle) (teach : M -> list nat -> list (list Q)) (w : M) (s : list nat * option (list nat)) =>
        optim (b_id student) w (Distil (fst s) (soft (teach w (fst s))) (snd s)) in
      match cl_student cfg with
      | None => moved f (follow f (fun w iu => if binds (b_id f) then logits (b_id f) false start Weak iu else logits (b_id f) true w Weak iu)) steps h h'
      | Some s =>
          moved s (follow s (fun _ iu => logits (b_id f) false start Weak iu)) steps (store h (b_model f) {| c_weights := start; c_frozen := true |}) h'
      end
  end.
End Stages.
