(* The vocabulary in which DASO is stated. *)
From Coq Require Import QArith Qminmax.
From Verif Require Import Prelude QFacts DeepLossSpec DeepThreshSpec DeepEmaModel DeepEmaSpec CoMatchSpec DasoModel.
Local Open Scope Q_scope.
Local Open Scope list_scope.

(* the features of the rows labelled c, in order *)
Definition class_rows (c : nat) (y : list Z) (f : list (list Q)) : list (list Q) :=
  flat_map (fun r => if (nth r y (-1)%Z =? Z.of_nat c)%Z then [nth r f []] else []) (seq 0 (length y)).
(* the average of rows with d entries, zeros if there are none *)
Definition centre (d : nat) (rows : list (list Q)) : list Q := map (fun j => class_mean j rows) (seq 0 d).
(* a row scaled to length one, a length below 1e-12 counting as 1e-12 *)
Definition scaled (norm : list Q -> Q) (r : list Q) : list Q := map (fun x => x / Qmax (norm r) (1 # 1000000000000)) r.
Definition cosine (norm : list Q -> Q) (a b : list Q) : Q := inner (scaled norm a) (scaled norm b).
(* g is the greatest of f(0), ..., f(k-1) *)
Definition greatest (k : nat) (f : nat -> Q) (g : Q) : Prop := (exists c, (c < k)%nat /\ g == f c) /\ forall c, (c < k)%nat -> f c <= g.
(* how much of the semantic pseudo-label is used for a row of class c, when the classes have these frequencies: their powers,
   relative to the greatest *)
Definition trust (pow : Q -> Q) (k : nat) (freq : nat -> Q) (c : nat) (v : Q) : Prop :=
  let f := fun j => pow (Qmax (freq j) (1 # 1000000000000)) in exists g, greatest k f g /\ v == f c / Qmax g (1 # 1000000000000).
(* s = (1 - v) p + v q *)
Definition blended (k : nat) (v : Q) (p q s : list Q) : Prop := length s = k /\ forall c, (c < k)%nat -> nth c s 0 == (1 - v) * nth c p 0 + v * nth c q 0.
Definition how_often (labels : list Z) (c : nat) : Q := inject_Z (countZ (Z.of_nat c) labels) / inject_Z (lenZ labels).

Definition daso_ok (n_l n_u k d : nat) (o : daso_out) : Prop :=
  table n_l k (do_l o) /\ table n_u k (do_w o) /\ table n_u d (do_fw o) /\ table n_u k (do_s o) /\ table n_u d (do_fs o).
(* the numbers that fit accepts *)
Definition daso_numbers_ok (cfg : daso_config) : Prop :=
  0 <= ds_lambda_u cfg /\ 0 <= ds_lambda_align cfg /\ 0 <= ds_cutoff cfg <= 1 /\ 0 < ds_t_proto cfg /\ 0 < ds_t_dist cfg /\ (0 < ds_queue cfg)%Z /\ (0 <= ds_pretrain cfg)%Z /\
  (0 < ds_period cfg)%Z /\ 0 <= ds_decay cfg <= 1 /\ 0 <= ds_alpha cfg <= 1.

(* ------------------------------------------------------------------ a fit *)
Section History.
Variable softmax log_softmax : list Q -> list Q.
Variable ce : list Q -> Z -> Q.
Variable argmax : list Q -> Z.
Variable pow log : Q -> Q.
Variable norm : list Q -> Q.
Variable cfg : daso_config.
Variables k d : nat.
Variable net : Z -> list nat -> list nat -> daso_out.
Variable feats : Z -> list tensor -> list nat -> list (list Q).
Variable weights : nat -> list tensor.               (* the weights with which step u computes the features of the labelled rows *)
Variable y : list Z.
Variable steps : list (list nat * list nat).
Definition outs (u : nat) : daso_out := let '(il, iu) := nth u steps ([], []) in net (Z.of_nat u) il iu.
Definition labels (u : nat) : list Z := map (fun i => nth i y 0%Z) (fst (nth u steps ([], []))).
Definition labelled_feats (u : nat) : list (list Q) := feats (Z.of_nat u) (weights u) (fst (nth u steps ([], []))).
(* the last queue_size features of rows labelled c up to step t, and their average *)
Definition memory (t c : nat) : list (list Q) := recent (Z.to_nat (ds_queue cfg)) (concat (map (fun u => class_rows c (labels u) (labelled_feats u)) (seq 0 (S t)))).
Definition prototypes (t : nat) : list (list Q) := map (fun c => centre d (memory t c)) (seq 0 k).
(* the semantic pseudo-label of a row of features *)
Definition semantics (t : nat) (f : list Q) : list Q := softmax (map (fun p => cosine norm f p / ds_t_proto cfg) (prototypes t)).
(* the classes of the targets P of some steps *)
Variable P : nat -> list (list Q).
Definition chosen_classes (from number : nat) : list Z := concat (map (fun u => map argmax (P u)) (seq from number)).
(* the class frequencies used at step t: among the targets of the last complete period, equal before there is one *)
Definition frequency (t c : nat) : Q :=
  match (t / Z.to_nat (ds_period cfg))%nat with
  | O => 1 / inject_Z (Z.of_nat k)
  | S w => how_often (chosen_classes (w * Z.to_nat (ds_period cfg)) (Z.to_nat (ds_period cfg))) c
  end.
(* the target s of a row with logits z and features f at step t *)
Definition daso_target (t : nat) (z f s : list Q) : Prop :=
  if (Z.of_nat t <? ds_pretrain cfg)%Z then s = softmax z
  else if ds_dist_aware cfg then exists v, trust pow k (frequency t) (Z.to_nat (argmax (softmax z))) v /\ blended k v (softmax z) (semantics t f) s
  else blended k (ds_alpha cfg) (softmax z) (semantics t f) s.
(* the loss of step t: cross entropy of the labelled rows; the average loss of the strong view against the targets, over those
   in which some class reaches p_cutoff; after pretraining, the average cross entropy between the semantic pseudo-labels of the
   two views *)
Definition daso_loss (t : nat) (loss : Q) : Prop :=
  let o := outs t in let n := length (P t) in
  exists sup unsup align,
    average (map (fun r => ce (nth r (do_l o) []) (nth r (labels t) 0%Z)) (seq 0 (length (labels t)))) sup /\
    average (map (fun r => if ds_hard cfg then ce (nth r (do_s o) []) (argmax (nth r (P t) []))
                           else soft_cross_entropy k (nth r (P t) []) (log_softmax (nth r (do_s o) [])))
                 (chosen n (fun r => confident (ds_cutoff cfg) (nth r (P t) [])))) unsup /\
    (if (Z.of_nat t <? ds_pretrain cfg)%Z || Qeq_bool (ds_lambda_align cfg) 0 then align == 0
     else average (map (fun r => - Qsum (map (fun c => nth c (semantics t (nth r (do_fw o) [])) 0 *
                                                       log (Qmax (nth c (semantics t (nth r (do_fs o) [])) 0) (1 # 1000000000000))) (seq 0 k))) (seq 0 n)) align) /\
    loss == sup + ds_lambda_u cfg * unsup + ds_lambda_align cfg * align.
Definition daso_run (losses : list Q) : Prop :=
  length losses = length steps /\
  forall t, (t < length steps)%nat ->
    length (P t) = length (snd (nth t steps ([], []))) /\
    (forall r, (r < length (P t))%nat -> daso_target t (nth r (do_w (outs t)) []) (nth r (do_fw (outs t)) []) (nth r (P t) [])) /\
    daso_loss t (nth t losses 0).
End History.
(* the averaged weights can be used: the function that gives features takes a model, or there is none *)
Definition takes_weights (plain ema : extractor) : Prop := ema = WithModel \/ (ema = NoExtractor /\ plain <> Plain).
