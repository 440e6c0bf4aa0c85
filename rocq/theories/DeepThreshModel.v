(* Model of the adaptive thresholds of FlexMatch, FreeMatch, AdaMatch, SoftMatch and ADSH
   (src/modssc/inductive/methods/{flexmatch,free_match,adamatch,softmatch,adsh}.py).  A batch is a list of rows of class
   probabilities (rationals); argmax is any function that returns a position of the maximum. *)
From Coq Require Import QArith Qminmax.
From Verif Require Import Prelude QFacts DeepLossModel EnsembleModel.
Local Open Scope Z_scope.
Local Open Scope Q_scope.
Local Open Scope list_scope.

(* probs.mean(dim=0) for rows with k columns *)
Definition col_mean (k : nat) (rows : list row) : row := map (fun c => Qmean (map (fun r => nth c r 0) rows)) (seq 0 k).
(* torch.bincount(l, minlength=k) when every entry is below k *)
Definition bincount (k : nat) (l : list Z) : list Z := map (fun c => countZ (Z.of_nat c) l) (seq 0 k).
Definition maxZ0 (l : list Z) : Z := fold_right Z.max 0%Z l.

Section Thresholds.
Variable argmax : row -> Z.

(* ------------------------------------------------------------------ FlexMatch *)
(* self._selected_label and self._classwise_acc *)
Record flex := { fx_sel : list Z; fx_acc : list Q }.
(* _init_state (flexmatch.py 79-85) *)
Definition flex_init (n_classes : nat) (ulb : Z) : flex := {| fx_sel := repeat (-1)%Z (Z.to_nat ulb); fx_acc := repeat 0 n_classes |}.

(* _update_classwise_acc (flexmatch.py 87-103); counts are those of selected_label + 1, so the first belongs to -1.
   Selected labels are below the number of classes. *)
Definition flex_acc (warmup : bool) (n_classes : nat) (sel : list Z) : list Q :=
  let counts := bincount (S n_classes) (map (fun s => (s + 1)%Z) sel) in
  if warmup then
    let denom := Z.max (maxZ0 counts) 1 in
    map (fun c => inject_Z c / inject_Z denom) (tl counts)
  else
    let denom := maxZ0 (tl counts) in
    if (denom <=? 0)%Z then repeat 0 n_classes else map (fun c => inject_Z c / inject_Z denom) (tl counts).

(* _get_idx_u (flexmatch.py 105-151) on an int64 vector that lies on the right device: the size of the pool.
   [ulb_size] and [unlabeled_size] are the two entries of data.meta; 0 counts as missing in `a or b`. *)
Definition py_or (a b : option Z) : option Z := match a with Some x => if (x =? 0)%Z then b else Some x | None => b end.
Definition flex_pool (n_u : Z) (idx : list Z) (ulb_size unlabeled_size : option Z) : result Z :=
  if negb (lenZ idx =? n_u)%Z then Err InductiveValidationError
  else match py_or ulb_size unlabeled_size with
       | None =>
           if negb (fold_right Z.min (hd 0%Z idx) idx =? 0)%Z || negb (fold_right Z.max (hd 0%Z idx) idx =? n_u - 1)%Z then Err InductiveValidationError
           else if negb (lenZ (uniqueZ idx) =? n_u)%Z then Err InductiveValidationError
           else Ok n_u
       | Some ulb =>
           if (ulb <? n_u)%Z then Err InductiveValidationError
           else if (ulb <=? fold_right Z.max (hd 0%Z idx) idx)%Z then Err InductiveValidationError
           else Ok ulb
       end.

(* tensor[i]: a negative index counts from the end *)
Definition torch_index (n : nat) (i : Z) : result nat :=
  if (0 <=? i)%Z && (i <? Z.of_nat n)%Z then Ok (Z.to_nat i)
  else if (- Z.of_nat n <=? i)%Z && (i <? 0)%Z then Ok (Z.to_nat (i + Z.of_nat n))
  else Err IndexError.
(* self._selected_label[idx_global[select]] = max_idx[select].  Simplification: when an index occurs twice the later row
   wins (torch leaves the order open). *)
Fixpoint flex_assign (sel : list Z) (rows : list (Z * Z)) : result (list Z) :=
  match rows with
  | [] => Ok sel
  | (i, c) :: r => do k <- torch_index (length sel) i; flex_assign (update sel k (fun _ => c)) r
  end.

(* one step of FlexMatchMethod.fit (flexmatch.py 290-334): the mask of the batch and the state.  A row of the batch is its
   global index and its weak probabilities.  The state is created by the first step of the first fit only. *)
Definition flex_threshold (cutoff a : Q) : Q := cutoff * (a / (2 - a)).
Fixpoint flex_mask (cutoff : Q) (acc : list Q) (batch : list (Z * row)) : result (list bool) :=
  match batch with
  | [] => Ok []
  | (_, p) :: r =>
      do k <- torch_index (length acc) (argmax p);
      do m <- flex_mask cutoff acc r;
      Ok (Qle_bool (flex_threshold cutoff (nth k acc 0)) (row_max p) :: m)
  end.
Definition flex_step (warmup : bool) (cutoff : Q) (n_classes : nat) (ulb : Z) (st : option flex) (batch : list (Z * row)) : result (list bool * flex) :=
  let s := match st with Some s => s | None => flex_init n_classes ulb end in
  do mask <- flex_mask cutoff (fx_acc s) batch;
  let chosen := filter (fun b => Qle_bool cutoff (row_max (snd b))) batch in
  match chosen with
  | [] => Ok (mask, s)
  | _ => do sel <- flex_assign (fx_sel s) (map (fun b => (fst b, argmax (snd b))) chosen);
         Ok (mask, {| fx_sel := sel; fx_acc := flex_acc warmup (length (fx_acc s)) sel |})
  end.
(* the steps of a fit, starting from the state the object already has *)
Fixpoint flex_fit (warmup : bool) (cutoff : Q) (n_classes : nat) (ulb : Z) (st : option flex) (batches : list (list (Z * row))) : result (list (list bool) * option flex) :=
  match batches with
  | [] => Ok ([], st)
  | b :: r =>
      do ' (m, s) <- flex_step warmup cutoff n_classes ulb st b;
      do ' (ms, s') <- flex_fit warmup cutoff n_classes ulb (Some s) r;
      Ok (m :: ms, s')
  end.

(* ------------------------------------------------------------------ FreeMatch *)
Record free := { fr_model : row; fr_hist : row; fr_time : Q }.
(* _init_state (free_match.py 80-85) *)
Definition free_init (k : nat) : free :=
  let u := repeat (1 / inject_Z (Z.of_nat k)) k in {| fr_model := u; fr_hist := u; fr_time := Qmean u |}.
Definition mix (m : Q) (a b : row) : row := zipw (fun x y => x * m + (1 - m) * y) a b.
(* _update_state (free_match.py 87-111).  [q80] is max_probs.quantile(0.8). *)
Variable q80 : list Q -> Q.
Definition free_update (m : Q) (use_quantile clip : bool) (st : option free) (probs : list row) : free :=
  let k := width probs in
  let s := match st with Some s => s | None => free_init k end in
  let max_probs := map row_max probs in
  let value := if use_quantile then q80 max_probs else Qmean max_probs in
  let time := fr_time s * m + (1 - m) * value in
  let time := if clip then Qmin (Qmax time 0) (95 # 100) else time in
  let counts := bincount (length (fr_model s)) (map argmax probs) in
  let total := sumZ counts in
  let hist := if (0 <? total)%Z then map (fun c => inject_Z c / inject_Z total) counts else map inject_Z counts in
  {| fr_model := mix m (fr_model s) (col_mean k probs); fr_hist := mix m (fr_hist s) hist; fr_time := time |}.
(* free_match.py 286-288 *)
Definition free_threshold (s : free) (c : Z) : Q :=
  fr_time s * (nth (Z.to_nat c) (fr_model s) 0 / Qmax (row_max (fr_model s)) tiny).
Definition free_mask (s : free) (probs : list row) : list bool :=
  map (fun p => Qle_bool (free_threshold s (argmax p)) (row_max p)) probs.
Fixpoint free_fit (m : Q) (use_quantile clip : bool) (st : option free) (batches : list (list row)) : list (list bool) * option free :=
  match batches with
  | [] => ([], st)
  | b :: r => let s := free_update m use_quantile clip st b in
              let '(ms, s') := free_fit m use_quantile clip (Some s) r in
              (free_mask s b :: ms, s')
  end.

(* ------------------------------------------------------------------ AdaMatch and SoftMatch *)
Record align := { al_model : row; al_target : row }.
(* init_alignment_uniform (helpers/torch_support.py 81-84) *)
Definition align_init (k : nat) : align := let u := repeat (1 / inject_Z (Z.of_nat k)) k in {| al_model := u; al_target := u |}.
(* _update_alignment (adamatch.py 75-91) and _dist_align with dist_align (softmatch.py 83-102); [move_target] is false
   for SoftMatch with dist_uniform *)
Definition align_state (m : Q) (move_target : bool) (st : option align) (probs_u probs_l : list row) : align :=
  let k := width probs_u in
  let s := match st with Some s => s | None => align_init k end in
  {| al_model := mix m (al_model s) (col_mean k probs_u);
     al_target := if move_target then mix m (al_target s) (col_mean k probs_l) else al_target s |}.
Definition align_row (s : align) (p : row) : row :=
  let ratio := zipw (fun t q => t / Qmax q (1 # 1000000)) (al_target s) (al_model s) in
  let a := zipw Qmult p ratio in
  map (fun x => x / Qmax (Qsum a) tiny) a.
(* the relative threshold of AdaMatch (adamatch.py 281-282) *)
Definition ada_threshold (cutoff : Q) (probs_l : list row) : Q := Qmean (map row_max probs_l) * cutoff.
Definition ada_mask (cutoff : Q) (aligned probs_l : list row) : list bool :=
  map (fun p => Qle_bool (ada_threshold cutoff probs_l) (row_max p)) aligned.
(* the steps of a fit, on the weak probabilities of the unlabelled and of the labelled rows: the aligned rows of each
   batch and the state, which the next fit of the same object inherits *)
Fixpoint align_fit (m : Q) (move_target : bool) (st : option align) (batches : list (list row * list row)) : list (list row) * option align :=
  match batches with
  | [] => ([], st)
  | (u, l) :: r => let s := align_state m move_target st u l in
                   let '(a, s') := align_fit m move_target (Some s) r in
                   (map (align_row s) u :: a, s')
  end.

(* the truncated Gaussian weight of SoftMatch (softmatch.py 300-302) *)
Variable exp : Q -> Q.
Definition soft_weight (n_sigma mu var p : Q) : Q :=
  let denom := Qmax (2 * var / (n_sigma * n_sigma)) tiny in
  let diff := Qmin (p - mu) 0 in
  exp (- (diff * diff) / denom).
(* softmatch.py 286-306 with hard_label: the pseudo-label and the weight of a row.  Simplification: the sharpening of the
   raw probabilities is left out (it keeps their order). *)
Definition soft_row (s : align) (n_sigma mu var : Q) (p : row) : Z * Q := (argmax p, soft_weight n_sigma mu var (row_max (align_row s p))).
(* softmatch.py 312-313 *)
Definition weighted_mean (losses weights : list Q) : Q := Qsum (zipw Qmult losses weights) / Qmax (Qsum weights) 1.
(* _update_stats (softmatch.py 115-140) without per_class: the averages of the greatest probability and its variance.
   [variance] is max_probs.var(unbiased=True). *)
Variable variance : list Q -> Q.
Definition soft_stats (m : Q) (st : Q * Q) (max_probs : list Q) : Q * Q :=
  let var := if (1 <? lenZ max_probs)%Z then variance max_probs else 0 in
  (fst st * m + (1 - m) * Qmean max_probs, snd st * m + (1 - m) * var).
(* _update_stats with per_class: one class *)
Definition soft_stats_class (m : Q) (st : Q * Q) (c : Z) (rows : list (Q * Z)) : Q * Q :=
  let mine := map fst (filter (fun r => (snd r =? c)%Z) rows) in
  let '(mu, var) := if (1 <? lenZ mine)%Z then (Qmean mine, variance mine) else (0, 1) in
  (fst st * m + (1 - m) * mu, snd st * m + (1 - m) * var).

(* ------------------------------------------------------------------ ADSH *)
(* torch.sort(vals, descending=True) *)
Variable sort_desc : list Q -> list Q.
(* the greatest probabilities of the rows predicted as class c, in order (adsh.py 66-81) *)
Definition predicted_as (probs : list row) (c : Z) : list Q := map row_max (filter (fun p => (argmax p =? c)%Z) probs).
(* _update_scores (adsh.py 39-108) on the probabilities of the whole unlabelled set, in evaluation mode *)
Definition adsh_rho (cutoff : Q) (majority : list Q) : Q :=
  match majority with
  | [] => 1
  | _ => let count := lenZ (filter (fun v => Qle_bool cutoff v) majority) in
         if (0 <? count)%Z then inject_Z count / inject_Z (lenZ majority) else 1
  end.
Definition adsh_score (cutoff rho : Q) (old : Q) (vals : list Q) : Q :=
  match vals with
  | [] => old
  | _ => let idx := round_even (inject_Z (lenZ vals) * rho - 1) in
         let idx := if (idx <? 0)%Z then 0%Z else idx in
         let idx := if (lenZ vals <=? idx)%Z then (lenZ vals - 1)%Z else idx in
         Qmin (nth (Z.to_nat idx) (sort_desc vals) 0) cutoff
  end.
Definition adsh_update (cutoff : Q) (majority : Z) (scores : list Q) (probs : list row) : list Q :=
  let rho := adsh_rho cutoff (predicted_as probs majority) in
  map (fun c => if (Z.of_nat c =? majority)%Z then cutoff
                else adsh_score cutoff rho (nth c scores 0) (predicted_as probs (Z.of_nat c))) (seq 0 (length scores)).
(* adsh.py 323-325: the pseudo-label of a row and whether it is used *)
Definition adsh_row (scores : list Q) (p : row) : Z * bool :=
  let rectify := zipw Qdiv p scores in (argmax rectify, Qle_bool 1 (row_max rectify)).
End Thresholds.
