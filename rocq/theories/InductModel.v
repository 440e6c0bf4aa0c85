(* Model of the wrapper methods of modssc.inductive: the selection helpers of
   src/modssc/inductive/methods/helpers/classifier_bridge.py and the training loops of
   pseudo_label.py, self_training.py, co_training.py, tri_training.py, setred.py,
   democratic_co_learning.py and s4vm.py (numpy backend unless said otherwise).

   Simplifications, for the whole file:
   - Scores are exact rationals instead of float64; nan is not modelled.
   - A base classifier is three arbitrary functions: [fit c X y] is the model obtained by the c-th
     call of fit (c counts the earlier calls, so seeds and warm starts are covered), [scores m X]
     and [predict m X] what predict_scores and predict return on the rows X.  Exceptions raised
     inside a classifier are not modelled.
   - Rows have an arbitrary type; labels are integers.
   - A run returns the list of training sets handed to fit, in call order: that is what the wrapper
     does that can be observed from outside, together with the rows left unlabelled.
   - np.argsort is an arbitrary function (its default sort is not stable); torch.topk too. *)
From Coq Require Import List ZArith Lia Bool QArith.
From Verif Require Import Prelude QFacts.
Import ListNotations.
Open Scope Z_scope.

(* ----- numpy and Python vocabulary ----- *)

(* ndarray.max along a row; a row with no column raises ValueError. *)
Fixpoint row_max_from (m : Q) (r : list Q) : Q :=
  match r with
  | [] => m
  | x :: r' => row_max_from (if Qle_bool x m then m else x) r'
  end.

Definition row_max (r : list Q) : result Q :=
  match r with [] => Err ValueError | x :: r' => Ok (row_max_from x r') end.

(* scores.max(axis=1) (classifier_bridge.py 198, self_training.py 154) *)
Fixpoint row_maxima (scores : list (list Q)) : result (list Q) :=
  match scores with
  | [] => Ok []
  | r :: rest => do m <- row_max r; do ms <- row_maxima rest; Ok (m :: ms)
  end.

(* ndarray.argmax along a row: the first position of the largest value. *)
Fixpoint argmax_from (m : Q) (at_ i : nat) (r : list Q) : nat :=
  match r with
  | [] => at_
  | x :: r' => if Qle_bool x m then argmax_from m at_ (S i) r' else argmax_from x i (S i) r'
  end.

Definition argmax (r : list Q) : nat :=
  match r with [] => 0%nat | x :: r' => argmax_from x 0 1 r' end.

(* conf >= float(threshold), and no test when the threshold is None *)
Definition above (thr : option Q) (c : Q) : bool :=
  match thr with None => true | Some t => Qle_bool t c end.

(* l[:m] with Python's meaning of a negative bound *)
Definition py_take {A} (m : Z) (l : list A) : list A :=
  if m <? 0 then firstn (length l - Z.to_nat (- m)) l else firstn (Z.to_nat m) l.

(* X[idx] *)
Definition rows {A} (d : A) (X : list A) (idx : list nat) : list A := map (fun i => nth i X d) idx.

Definition memN (i : nat) (l : list nat) : bool := existsb (Nat.eqb i) l.

(* X[keep] where keep is all true except keep[idx] = False *)
Definition drop_rows {A} (d : A) (X : list A) (idx : list nat) : list A :=
  rows d X (filter (fun i => negb (memN i idx)) (seq 0 (length X))).

(* ----- classifier_bridge.select_confident (192-206) ----- *)

Definition select_confident (argsort : list Q -> list nat) (thr : option Q) (max_new : option Z)
    (scores : list (list Q)) : result (list nat) :=
  do conf <- row_maxima scores;
  let idx := filter (fun i => above thr (nth i conf 0%Q)) (seq 0 (length conf)) in
  Ok (match max_new with
      | Some m =>
          if m <? lenZ idx
          then rows 0%nat idx (py_take m (rev (argsort (rows 0%Q conf idx))))
          else idx
      | None => idx
      end).

(* classifier_bridge.select_confident_torch (234-250): torch.topk(conf, k) raises RuntimeError for a
   negative k. *)
Definition select_confident_torch (topk : list Q -> nat -> list nat) (thr : option Q)
    (max_new : option Z) (scores : list (list Q)) : result (list nat) :=
  do conf <- row_maxima scores;
  let idx := filter (fun i => above thr (nth i conf 0%Q)) (seq 0 (length conf)) in
  match max_new with
  | Some m =>
      if m <? lenZ idx
      then if m <? 0 then Err RuntimeError
           else Ok (rows 0%nat idx (topk (rows 0%Q conf idx) (Z.to_nat m)))
      else Ok idx
  | None => Ok idx
  end.

(* ----- classifier_bridge.select_top_per_class (209-231) ----- *)

(* The body of the loop over cls (217-230), with [best keys k] the first k entries of
   np.argsort(keys)[::-1]. *)
Definition score_at (scores : list (list Q)) (cls i : nat) : Q := nth cls (nth i scores []) 0%Q.

Definition class_members (scores : list (list Q)) (thr : option Q) (cls : nat) : list nat :=
  filter (fun i => above thr (score_at scores cls i))
    (filter (fun i => Nat.eqb (argmax (nth i scores [])) cls) (seq 0 (length scores))).

Definition sorted_set (l : list nat) : list nat := map Z.to_nat (uniqueZ (map Z.of_nat l)).

(* scores.shape[1]; a matrix without rows is given by its (unused) column count 0. *)
Definition n_columns (scores : list (list Q)) : nat :=
  match scores with [] => 0%nat | r :: _ => length r end.

Definition select_top_per_class (argsort : list Q -> list nat) (k : Z) (thr : option Q)
    (scores : list (list Q)) : list nat :=
  sorted_set (flat_map (fun cls =>
    let members := class_members scores thr cls in
    rows 0%nat members (py_take k (rev (argsort (map (score_at scores cls) members)))))
    (seq 0 (n_columns scores))).

(* classifier_bridge.select_top_per_class_torch (253-279) *)
Definition select_top_per_class_torch (topk : list Q -> nat -> list nat) (k : Z) (thr : option Q)
    (scores : list (list Q)) : result (list nat) :=
  if (k <? 0) && existsb (fun cls => negb (Nat.eqb (length (class_members scores thr cls)) 0))
                   (seq 0 (n_columns scores))
  then Err RuntimeError
  else Ok (sorted_set (flat_map (fun cls =>
    let members := class_members scores thr cls in
    rows 0%nat members (topk (map (score_at scores cls) members)
                             (Nat.min (Z.to_nat k) (length members))))
    (seq 0 (n_columns scores)))).

(* ----- the training loops ----- *)

Record run (X : Type) := {
  calls : list (list X * list Z);      (* training sets given to fit, in order *)
  leftover : list X                    (* rows still unlabelled at the end *)
}.
Arguments calls {X}. Arguments leftover {X}.

Section Loops.
Context {X M : Type}.
Variable d : X.                                   (* value read out of range; never happens *)
Variable fit : nat -> list X -> list Z -> M.
Variable scores : M -> list X -> list (list Q).
Variable predict : M -> list X -> list Z.
Variable argsort : list Q -> list nat.

(* PseudoLabelMethod.fit, the while loop and the last fit (pseudo_label.py 98-134).  [fuel] is
   max_iter minus iter_count. *)
Fixpoint pseudo_label_loop (thr : Q) (max_new : option Z) (min_new : Z) (fuel : nat)
    (done : list (list X * list Z)) (Xl : list X) (yl : list Z) (Xu : list X) : result (run X) :=
  let stop cs := Ok {| calls := cs ++ [(Xl, yl)]; leftover := Xu |} in
  match fuel with
  | O => stop done
  | S f =>
      let m := fit (length done) Xl yl in
      let done' := done ++ [(Xl, yl)] in
      match Xu with
      | [] => stop done'
      | _ =>
          do idx <- select_confident argsort (Some thr) max_new (scores m Xu);
          if lenZ idx <? min_new then stop done'
          else pseudo_label_loop thr max_new min_new f done'
                 (Xl ++ rows d Xu idx) (yl ++ predict m (rows d Xu idx)) (drop_rows d Xu idx)
      end
  end.

(* PseudoLabelMethod.fit (pseudo_label.py 65-137); an empty X_u gives a single fit. *)
Definition pseudo_label_fit (max_iter : Z) (thr : Q) (max_new : option Z) (min_new : Z)
    (Xl : list X) (yl : list Z) (Xu : list X) : result (run X) :=
  match Xu with
  | [] => Ok {| calls := [(Xl, yl)]; leftover := [] |}
  | _ =>
      match Xl with
      | [] => Err InductiveValidationError
      | _ => pseudo_label_loop thr max_new min_new (Z.to_nat max_iter) [] Xl yl Xu
      end
  end.

(* ----- self-training ----- *)

Record st_spec := {
  st_max_iter : Z; st_thr : option Q; st_max_new : option Z; st_min_new : Z;
  st_use_group : option bool; st_min_count : Z; st_min_fraction : Q; st_group_thr : option Q
}.

(* counts.argmax(): first largest *)
Fixpoint argmaxZ_from (m : Z) (at_ i : nat) (l : list Z) : nat :=
  match l with
  | [] => at_
  | x :: l' => if x <=? m then argmaxZ_from m at_ (S i) l' else argmaxZ_from x i (S i) l'
  end.

(* Lines 194-199: the most frequent vote and its count (np.unique sorts the labels). *)
Definition major_vote (votes : list Z) : Z :=
  let labels := uniqueZ votes in
  match map (fun l => countZ l votes) labels with
  | [] => 0
  | c :: cs => nth (argmaxZ_from c 0 1 cs) labels 0
  end.

(* Lines 172-205 for one group: the label and confidence given to the members that are not yet
   candidates, or None when a test fails. *)
Definition group_verdict (sp : st_spec) (conf : list Q) (pred : list Z) (group_u : list Z)
    (group_l : option (list Z)) (yl : list Z) (gid : Z) : option (Z * Q) :=
  let group_idx := filter (fun i => nth i group_u 0 =? gid) (seq 0 (length group_u)) in
  let direct := filter (fun i => above (st_thr sp) (nth i conf 0%Q)) group_idx in
  let votes_l := match group_l with
                 | None => []
                 | Some gl => map (fun i => (nth i yl 0, 1%Q))
                                (filter (fun i => nth i gl 0 =? gid) (seq 0 (length gl)))
                 end in
  let votes := votes_l ++ map (fun i => (nth i pred 0, nth i conf 0%Q)) direct in
  if lenZ votes <? st_min_count sp then None
  else
    let label := major_vote (map fst votes) in
    let fraction := ratio (countZ label (map fst votes)) (lenZ votes) in
    if negb (Qle_bool (st_min_fraction sp) fraction) then None
    else
      let c := Qmean (map snd (filter (fun v => fst v =? label) votes)) in
      let gthr := match st_group_thr sp with Some t => Some t | None => st_thr sp end in
      if above gthr c then Some (label, c) else None.

Definition candidate := (nat * (Z * Q))%type.

Definition is_candidate (cs : list candidate) (i : nat) : bool := memN i (map fst cs).

(* Lines 207-211 *)
Definition add_members (group_u : list Z) (gid : Z) (v : Z * Q) (cs : list candidate) : list candidate :=
  fold_left (fun acc i => if is_candidate acc i then acc else acc ++ [(i, v)])
    (filter (fun i => nth i group_u 0 =? gid) (seq 0 (length group_u))) cs.

(* items.sort(key=confidence, reverse=True): stable, so equal confidences keep their order. *)
Fixpoint insert_desc (x : candidate) (l : list candidate) : list candidate :=
  match l with
  | [] => [x]
  | y :: r => if Qle_bool (snd (snd y)) (snd (snd x)) then x :: y :: r else y :: insert_desc x r
  end.

Definition sort_desc (l : list candidate) : list candidate := fold_right insert_desc [] l.

(* _select_candidates_numpy (140-223).  [group_u] is None when use_group is false. *)
Definition select_candidates (sp : st_spec) (scs : list (list Q)) (pred : list Z)
    (group_u : option (list Z)) (group_l : option (list Z)) (yl : list Z)
    : result (list nat * list Z) :=
  do conf <- row_maxima scs;
  let direct := filter (fun i => above (st_thr sp) (nth i conf 0%Q)) (seq 0 (length conf)) in
  let cands0 := map (fun i => (i, (nth i pred 0, nth i conf 0%Q))) direct in
  let cands := match group_u with
               | None => cands0
               | Some gu =>
                   fold_left (fun acc gid =>
                     match group_verdict sp conf pred gu group_l yl gid with
                     | None => acc
                     | Some v => add_members gu gid v acc
                     end) (uniqueZ gu) cands0
               end in
  let items := sort_desc cands in
  let items := match st_max_new sp with
               | Some m => if m <? lenZ items then py_take m items else items
               | None => items
               end in
  Ok (map fst items, map (fun it => fst (snd it)) items).

(* SelfTrainingMethod.fit, the while loop and the last fit (self_training.py 303-352) *)
Fixpoint self_training_loop (sp : st_spec) (group_l : option (list Z)) (fuel : nat)
    (done : list (list X * list Z)) (Xl : list X) (yl : list Z) (Xu : list X)
    (group_u : option (list Z)) : result (run X) :=
  let stop cs := Ok {| calls := cs ++ [(Xl, yl)]; leftover := Xu |} in
  match fuel with
  | O => stop done
  | S f =>
      let m := fit (length done) Xl yl in
      let done' := done ++ [(Xl, yl)] in
      match Xu with
      | [] => stop done'
      | _ =>
          do ' (idx, labels) <-
            select_candidates sp (scores m Xu) (predict m Xu) group_u group_l yl;
          if lenZ idx <? st_min_new sp then stop done'
          else self_training_loop sp group_l f done'
                 (Xl ++ rows d Xu idx) (yl ++ labels) (drop_rows d Xu idx)
                 (option_map (fun g => drop_rows 0 g idx) group_u)
      end
  end.

(* SelfTrainingMethod.fit (self_training.py 245-356) with the group ids already resolved (_resolve_group_ids,
   107-137, checks that they are as long as X_u and X_l). *)
Definition self_training_fit (sp : st_spec) (group_u group_l : option (list Z))
    (Xl : list X) (yl : list Z) (Xu : list X) : result (run X) :=
  if st_min_count sp <? 1 then Err InductiveValidationError
  else if negb (Qle_bool 0 (st_min_fraction sp) && Qle_bool (st_min_fraction sp) 1)
  then Err InductiveValidationError
  else match Xu with
  | [] => Ok {| calls := [(Xl, yl)]; leftover := [] |}
  | _ =>
      match Xl with
      | [] => Err InductiveValidationError
      | _ =>
          let use_group := match st_use_group sp with
                           | Some b => b
                           | None => match group_u with Some _ => true | None => false end
                           end in
          if use_group && match group_u with Some _ => false | None => true end
          then Err InductiveValidationError
          else self_training_loop sp group_l (Z.to_nat (st_max_iter sp)) [] Xl yl Xu
                 (if use_group then group_u else None)
      end
  end.

End Loops.

(* ----- co-training (co_training.py 302-420) ----- *)

Section CoTraining.
Context {X1 X2 M1 M2 : Type}.
Variables (d1 : X1) (d2 : X2).
Variable fit1 : nat -> list X1 -> list Z -> M1.
Variable fit2 : nat -> list X2 -> list Z -> M2.
Variable scores1 : M1 -> list X1 -> list (list Q).
Variable scores2 : M2 -> list X2 -> list (list Q).
Variable predict1 : M1 -> list X1 -> list Z.
Variable predict2 : M2 -> list X2 -> list Z.
Variable argsort : list Q -> list nat.

Record co_state := {
  co_X1l : list X1; co_y1 : list Z; co_X2l : list X2; co_y2 : list Z;
  co_X1u : list X1; co_X2u : list X2
}.

Record co_run := {
  co_calls1 : list (list X1 * list Z);
  co_calls2 : list (list X2 * list Z);
  co_left1 : list X1;
  co_left2 : list X2
}.

(* Lines 328-416.  [done1] and [done2] always have the same length. *)
Fixpoint co_loop (k : Z) (thr : option Q) (fuel : nat)
    (done1 : list (list X1 * list Z)) (done2 : list (list X2 * list Z)) (s : co_state) : co_run :=
  let stop c1 c2 := {| co_calls1 := c1 ++ [(co_X1l s, co_y1 s)];
                       co_calls2 := c2 ++ [(co_X2l s, co_y2 s)];
                       co_left1 := co_X1u s; co_left2 := co_X2u s |} in
  match fuel with
  | O => stop done1 done2
  | S f =>
      let m1 := fit1 (length done1) (co_X1l s) (co_y1 s) in
      let m2 := fit2 (length done2) (co_X2l s) (co_y2 s) in
      let done1' := done1 ++ [(co_X1l s, co_y1 s)] in
      let done2' := done2 ++ [(co_X2l s, co_y2 s)] in
      match co_X1u s with
      | [] => stop done1' done2'
      | _ =>
          let idx1 := select_top_per_class argsort k thr (scores1 m1 (co_X1u s)) in
          let idx2 := select_top_per_class argsort k thr (scores2 m2 (co_X2u s)) in
          match idx1, idx2 with
          | [], [] => stop done1' done2'
          | _, _ =>
              (* 370-377; with an empty idx nothing is concatenated *)
              let lab1 := match idx1 with [] => [] | _ => predict1 m1 (rows d1 (co_X1u s) idx1) end in
              let lab2 := match idx2 with [] => [] | _ => predict2 m2 (rows d2 (co_X2u s) idx2) end in
              co_loop k thr f done1' done2'
                {| co_X2l := co_X2l s ++ rows d2 (co_X2u s) idx1; co_y2 := co_y2 s ++ lab1;
                   co_X1l := co_X1l s ++ rows d1 (co_X1u s) idx2; co_y1 := co_y1 s ++ lab2;
                   co_X1u := drop_rows d1 (co_X1u s) (idx1 ++ idx2);
                   co_X2u := drop_rows d2 (co_X2u s) (idx1 ++ idx2) |}
          end
      end
  end.

(* CoTrainingMethod.fit (302-423), the length checks and the loop *)
Definition co_fit (max_iter k : Z) (thr : option Q) (X1l : list X1) (X2l : list X2) (yl : list Z)
    (X1u : list X1) (X2u : list X2) : result co_run :=
  if negb (Nat.eqb (length X1l) (length yl)) || negb (Nat.eqb (length X2l) (length yl))
  then Err InductiveValidationError
  else if negb (Nat.eqb (length X1u) (length X2u)) then Err InductiveValidationError
  else Ok (co_loop k thr (Z.to_nat max_iter) [] []
             {| co_X1l := X1l; co_y1 := yl; co_X2l := X2l; co_y2 := yl;
                co_X1u := X1u; co_X2u := X2u |}).

End CoTraining.
Arguments co_run : clear implicits.
