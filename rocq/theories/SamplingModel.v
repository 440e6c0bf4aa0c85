(* Model of src/modssc/sampling: splitters.py, labeling.py, imbalance.py, common.py and the
   index part of services/service.py and result.py.

   Conventions
   - index arrays are lists of Z, label arrays y are given through a function lab : Z -> Z
     (y[indices] in the code; callers always index inside the array, see lab_of and the range
     theorems).  Labels are integers; a label array of another dtype is represented by the ranks of
     its values (np.unique only uses order and equality).
   - numpy's Generator is a record of operations with their documented contract.
   - np.argsort is an argument [order] : any list of positions; contracts are hypotheses of the
     theorems that need them. *)
From Coq Require Import SpecFloat.
From Verif Require Import Prelude FloatModel.

(* np.random.Generator: the part of its interface used by the sampling code.
   permutation returns a permutation of its argument; choice(replace=False) with size <= len returns
   that many entries of distinct positions. *)
Record Rng := {
  rng_state : Type;
  permutation : rng_state -> list Z -> list Z * rng_state;
  choice : rng_state -> list Z -> nat -> list Z * rng_state;
  permutation_ok : forall s l, Permutation (fst (permutation s l)) l;
  choice_ok : forall s l k, (k <= length l)%nat ->
    length (fst (choice s l k)) = k /\
    exists rest, Permutation (fst (choice s l k) ++ rest) l
}.

(* np.argsort(keys): only its type here.  argsort_valid is its contract on the positions. *)
Definition argsort := list Z -> list nat.
Definition argsort_valid (a : argsort) : Prop :=
  forall keys, Permutation (a keys) (seq 0 (length keys)).
(* ascending order of the keys *)
Definition argsort_sorted (a : argsort) : Prop :=
  forall keys, Sorted (fun i j => nth i keys 0 <= nth j keys 0) (a keys).

(* common.py:6-18 class_counts.  Both branches: bincount when all labels are in 0..1_000_000,
   np.unique otherwise (dtype kind is not represented: labels are integers). *)
Definition unique_counts (ys : list Z) : list Z * list Z :=
  let classes := uniqueZ ys in (classes, map (fun c => countZ c ys) classes).
Definition minZ (l : list Z) : Z := fold_right Z.min (hd 0 l) l.
Definition maxZ (l : list Z) : Z := fold_right Z.max (hd 0 l) l.
Definition bincount (ys : list Z) (minlength : Z) : list Z :=
  map (fun c => countZ c ys) (arange minlength).
Definition class_counts (ys : list Z) : list Z * list Z :=
  match ys with
  | [] => ([], [])
  | _ =>
      if (0 <=? minZ ys) && (maxZ ys <=? 1000000) then
        let counts := bincount ys (maxZ ys + 1) in
        let classes := filter (fun c => negb (nth (Z.to_nat c) counts 0 =? 0))
                              (arange (maxZ ys + 1)) in
        (classes, map (fun c => nth (Z.to_nat c) counts 0) classes)
      else unique_counts ys
  end.

(* indices[y_sub == cls] *)
Definition of_class (lab : Z -> Z) (idx : list Z) (c : Z) : list Z :=
  filter (fun i => lab i =? c) idx.

(* splitters.py:8-18 random_split; returns (keep, holdout) *)
Definition random_split (R : Rng) (s : rng_state R) (indices : list Z) (n_holdout : Z)
  : list Z * list Z * rng_state R :=
  if n_holdout <=? 0 then (indices, [], s)
  else if lenZ indices <=? n_holdout then ([], indices, s)
  else
    let '(perm, s1) := permutation R s indices in
    let k := Z.to_nat n_holdout in
    (sortZ (skipn k perm), sortZ (firstn k perm), s1).

(* "for i in order[:remaining]: base[i] += 1" (splitters.py:45-47, labeling.py:63-64, 72-73) *)
Definition bump_all (base : list Z) (positions : list nat) : list Z :=
  fold_left (fun b i => update b i (fun v => v + 1)) positions base.

(* splitters.py:38-47: proportional allocation of n_holdout over the classes.
   expected = counts*n_holdout/total and its floor are exact integer arithmetic here: the float
   quotient of two integers below 2^53 rounds to an integer only when it is one, so np.floor gives
   the same result.  The sort keys -remainder are scaled by total (an integer). *)
Definition proportional (ord : argsort) (counts : list Z) (n total : Z) : list Z :=
  let base := map (fun c => c * n / total) counts in
  let remaining := n - sumZ base in
  if 0 <? remaining
  then bump_all base (firstn (Z.to_nat remaining) (ord (map (fun c => - (c * n mod total)) counts)))
  else base.

(* splitters.py:49-56: per-class permutation and cut *)
Fixpoint holdout_loop (R : Rng) (s : rng_state R) (lab : Z -> Z) (indices : list Z)
    (classes base : list Z) : list Z * list Z * rng_state R :=
  match classes, base with
  | c :: cr, b :: br =>
      let '(p, s1) := permutation R s (of_class lab indices c) in
      let k := Z.to_nat (Z.min (Z.max b 0) (lenZ p)) in
      let '(keep, hold, s2) := holdout_loop R s1 lab indices cr br in
      (skipn k p ++ keep, firstn k p ++ hold, s2)
  | _, _ => ([], [], s)
  end.

(* splitters.py:21-63 stratified_holdout; returns (keep, holdout) *)
Definition stratified_holdout (R : Rng) (ord : argsort) (s : rng_state R) (lab : Z -> Z)
    (indices : list Z) (n_holdout : Z) : list Z * list Z * rng_state R :=
  if n_holdout <=? 0 then (sortZ indices, [], s)
  else if lenZ indices <=? n_holdout then ([], sortZ indices, s)
  else
    let '(classes, counts) := class_counts (map lab indices) in
    let base := proportional ord counts n_holdout (lenZ indices) in
    let '(keep, hold, s1) := holdout_loop R s lab indices classes base in
    (sortZ keep, sortZ hold, s1).

Record split := { train : list Z; val : list Z; test : list Z }.

Definition holdout_part (R : Rng) (ord : argsort) (stratify : bool) (s : rng_state R)
    (lab : Z -> Z) (indices : list Z) (n_holdout : Z) :=
  if stratify then stratified_holdout R ord s lab indices n_holdout
  else random_split R s indices n_holdout.

(* splitters.py:66-97 make_holdout_split *)
Definition make_holdout_split (R : Rng) (ord : argsort) (s : rng_state R)
    (n_samples : Z) (lab : Z -> Z) (test_fraction val_fraction : f64) (stratify : bool)
  : result split :=
  if n_samples <? 0 then Err ValueError else
  let all_idx := arange n_samples in
  do r <- round_mul test_fraction n_samples;
  let n_test := Z.max 0 (Z.min n_samples r) in
  let '(train_val, tst, s1) := holdout_part R ord stratify s lab all_idx n_test in
  let n_train_val := lenZ train_val in
  do rv <- round_mul val_fraction n_train_val;
  let n_val := Z.max 0 (Z.min n_train_val rv) in
  let '(trn, vl, _) := holdout_part R ord stratify s1 lab train_val n_val in
  Ok {| train := trn; val := vl; test := tst |}.

(* np.array_split(l, k): the first (len mod k) pieces have one element more *)
Fixpoint cut_sizes {A} (l : list A) (sizes : list nat) : list (list A) :=
  match sizes with
  | [] => []
  | n :: r => firstn n l :: cut_sizes (skipn n l) r
  end.
Definition array_split {A} (l : list A) (k : nat) : list (list A) :=
  let q := (length l / k)%nat in
  let r := (length l mod k)%nat in
  cut_sizes l (repeat (S q) r ++ repeat q (k - r)).

(* splitters.py:140-147 plain_kfold *)
Definition plain_kfold (R : Rng) (s : rng_state R) (indices : list Z) (k : nat) (shuffle : bool)
  : list (list Z) * rng_state R :=
  let '(idx, s1) := if shuffle then permutation R s indices else (indices, s) in
  (array_split idx k, s1).

(* fold_parts[i].append(chunk_i): the pieces collected so far stay on the left *)
Definition append_chunks (parts chunks : list (list Z)) : list (list Z) :=
  map (fun p => fst p ++ snd p) (combine parts chunks).

(* splitters.py:162-169 *)
Fixpoint fold_parts_loop (R : Rng) (s : rng_state R) (lab : Z -> Z) (indices : list Z) (k : nat)
    (shuffle : bool) (classes : list Z) (parts : list (list Z)) : list (list Z) * rng_state R :=
  match classes with
  | [] => (parts, s)
  | c :: cr =>
      let cls := of_class lab indices c in
      let '(p, s1) := if shuffle then permutation R s cls else (cls, s) in
      fold_parts_loop R s1 lab indices k shuffle cr (append_chunks parts (array_split p k))
  end.

(* splitters.py:171-179 *)
Fixpoint shuffle_folds (R : Rng) (s : rng_state R) (shuffle : bool) (parts : list (list Z))
  : list (list Z) * rng_state R :=
  match parts with
  | [] => ([], s)
  | p :: r =>
      let '(p', s1) := if shuffle then permutation R s p else (p, s) in
      let '(r', s2) := shuffle_folds R s1 shuffle r in
      (p' :: r', s2)
  end.

(* splitters.py:150-180 stratified_kfold.  When there is no class at all the code leaves the
   generator untouched; shuffle_folds then permutes k empty folds, which only advances the
   generator. *)
Definition stratified_kfold (R : Rng) (s : rng_state R) (lab : Z -> Z) (indices : list Z)
    (k : nat) (shuffle : bool) : list (list Z) * rng_state R :=
  let classes := uniqueZ (map lab indices) in
  let '(parts, s1) := fold_parts_loop R s lab indices k shuffle classes (repeat [] k) in
  match classes with
  | [] => (parts, s1)
  | _ => shuffle_folds R s1 shuffle parts
  end.

Definition kfold_folds (R : Rng) (s : rng_state R) (lab : Z -> Z) (indices : list Z)
    (k : nat) (stratify shuffle : bool) :=
  if stratify then stratified_kfold R s lab indices k shuffle
  else plain_kfold R s indices k shuffle.

(* [f for i, f in enumerate(folds) if i != fold] *)
Definition drop_nth {A} (i : nat) (l : list A) : list A := firstn i l ++ skipn (S i) l.

(* splitters.py:100-137 make_kfold_split *)
Definition make_kfold_split (R : Rng) (ord : argsort) (s : rng_state R)
    (n_samples : Z) (lab : Z -> Z) (k fold : Z) (stratify shuffle : bool) (val_fraction : f64)
  : result split :=
  if k <=? 1 then Err ValueError
  else if (fold <? 0) || (k <=? fold) then Err ValueError
  else
    let all_idx := arange n_samples in
    let '(folds, s1) := kfold_folds R s lab all_idx (Z.to_nat k) stratify shuffle in
    let tst := sortZ (nth (Z.to_nat fold) folds []) in
    let pool := sortZ (concat (drop_nth (Z.to_nat fold) folds)) in
    if f64_ltb f64_zero val_fraction then
      do rv <- round_mul val_fraction (lenZ pool);
      let n_val := Z.max 0 (Z.min (lenZ pool) rv) in
      let '(trn, vl, _) := holdout_part R ord stratify s1 lab pool n_val in
      Ok {| train := trn; val := vl; test := tst |}
    else Ok {| train := pool; val := []; test := tst |}.

(* plan.py:110-127 LabelingSpec.  The [value] is a float for mode fraction, an int otherwise
   (LabelingSpec.from_dict coerces it so); the field per_class is never read by the code. *)
Inductive label_mode := MFraction (f : f64) | MCount (v : Z) | MPerClass (v : Z).
Inductive strategy := Proportional | Balanced.
Record labeling_spec := {
  l_mode : label_mode;
  l_min_per_class : Z;
  l_strategy : strategy;
  l_fixed : option (list Z)
}.

(* labeling.py:38-50: the requested number of labels, clamped to 0..|train| *)
Definition label_target (m : label_mode) (n_train n_classes : Z) : result Z :=
  do t <- match m with
          | MFraction f =>
              if f64_ltb f64_zero f && f64_leb f f64_one then round_mul f n_train
              else Err ValueError
          | MCount v => Ok v
          | MPerClass v => Ok (v * n_classes)
          end;
  Ok (Z.max 0 (Z.min n_train t)).

(* labeling.py:54-73: first allocation per class *)
Definition initial_alloc (ord : argsort) (m : label_mode) (st : strategy) (counts : list Z)
    (target n_train : Z) : list Z :=
  match m with
  | MPerClass v => map (fun _ => v) counts
  | _ =>
      match st with
      | Balanced =>
          if 0 <? target then
            let n := lenZ counts in
            bump_all (map (fun _ => target / n) counts)
                     (firstn (Z.to_nat (target mod n)) (ord (map Z.opp counts)))
          else proportional ord counts target n_train
      | Proportional => proportional ord counts target n_train
      end
  end.

(* labeling.py:75-81: minimum per class when available, then cap by availability *)
Definition enforce_min (mn : Z) (pc c : Z) : Z := if mn <=? c then Z.max pc mn else pc.
Definition clip_alloc (mn : Z) (counts alloc : list Z) : list Z :=
  map (fun p => Z.min (enforce_min mn (fst p) (snd p)) (snd p)) (combine alloc counts).

(* labeling.py:85-95: remove from the largest allocations.  The loop runs on explicit fuel. *)
Fixpoint remove_loop (fuel : nat) (mn target : Z) (counts : list Z) (order : list nat)
    (pc : list Z) (total : Z) : option (list Z) :=
  match fuel with
  | O => None
  | S f =>
      if total <=? target then Some pc else
      match order with
      | [] => Some pc
      | j :: rest =>
          let p := nth j pc 0 in
          let c := nth j counts 0 in
          if (0 <? p) && ((c <? mn) || (mn <? p))
          then remove_loop f mn target counts order (update pc j (fun v => v - 1)) (total - 1)
          else remove_loop f mn target counts rest pc total
      end
  end.

(* labeling.py:96-106: add where possible *)
Fixpoint add_loop (fuel : nat) (target : Z) (counts : list Z) (order : list nat)
    (pc : list Z) (total : Z) : option (list Z) :=
  match fuel with
  | O => None
  | S f =>
      if target <=? total then Some pc else
      match order with
      | [] => Some pc
      | j :: rest =>
          if nth j pc 0 <? nth j counts 0
          then add_loop f target counts order (update pc j (fun v => v + 1)) (total + 1)
          else add_loop f target counts rest pc total
      end
  end.

(* labeling.py:83-106 *)
Definition adjust (ord : argsort) (mn target : Z) (counts pc : list Z) : option (list Z) :=
  let total := sumZ pc in
  let fuel := (Z.to_nat (Z.abs (total - target)) + length pc + 1)%nat in
  if target <? total then
    remove_loop fuel mn target counts (ord (map Z.opp pc)) pc total
  else if total <? target then
    add_loop fuel target counts (ord (map (fun p => - (snd p - fst p)) (combine pc counts))) pc total
  else Some pc.

(* the allocation computed by labeling.py:54-106 *)
Definition label_alloc (ord : argsort) (spec : labeling_spec) (counts : list Z)
    (target n_train : Z) : option (list Z) :=
  adjust ord (l_min_per_class spec) target counts
    (clip_alloc (l_min_per_class spec) counts
       (initial_alloc ord (l_mode spec) (l_strategy spec) counts target n_train)).

(* labeling.py:109-115: draw per class; choice raises ValueError when size exceeds the population *)
Fixpoint choose_loop (R : Rng) (s : rng_state R) (lab : Z -> Z) (idx : list Z)
    (classes sel : list Z) : result (list Z * rng_state R) :=
  match classes, sel with
  | c :: cr, n :: nr =>
      if n <=? 0 then choose_loop R s lab idx cr nr
      else
        let pop := of_class lab idx c in
        if lenZ pop <? n then Err ValueError
        else
          let '(ch, s1) := choice R s pop (Z.to_nat n) in
          do r <- choose_loop R s1 lab idx cr nr;
          Ok (ch ++ fst r, snd r)
  | _, _ => Ok ([], s)
  end.

(* labeling.py:14-142 select_labeled *)
Definition select_labeled (R : Rng) (ord : argsort) (s : rng_state R) (train_idx : list Z)
    (lab : Z -> Z) (spec : labeling_spec) : result (list Z) :=
  match train_idx with
  | [] => Ok []
  | _ =>
    match l_fixed spec with
    | Some fixed =>
        if negb (Nat.eqb (length (setdiff1d fixed train_idx)) 0) then Err SamplingValidationError
        else if has_dup fixed then Err SamplingValidationError
        else Ok (sortZ fixed)
    | None =>
        let '(classes, counts) := class_counts (map lab train_idx) in
        do target <- label_target (l_mode spec) (lenZ train_idx) (lenZ classes);
        match label_alloc ord spec counts target (lenZ train_idx) with
        | None => Err OutOfFuel
        | Some pc =>
            do r <- choose_loop R s lab train_idx classes pc;
            let labeled := sortZ (fst r) in
            if lenZ train_idx <? lenZ labeled then Err SamplingValidationError
            else if has_dup labeled then Err SamplingValidationError
            else Ok labeled
        end
    end
  end.

(* plan.py:171-189 ImbalanceSpec *)
Inductive imb_kind := INone | ISubsample | ILongTail.
Inductive imb_target := ApplyTrain | ApplyLabeled.
Record imbalance_spec := {
  i_kind : imb_kind;
  i_apply_to : imb_target;
  i_max_per_class : option Z;
  i_alpha : option f64;
  i_min_per_class : Z
}.

(* imbalance.py:27-34: cap one class *)
Fixpoint subsample_loop (R : Rng) (s : rng_state R) (lab : Z -> Z) (idx : list Z) (cap : Z)
    (classes : list Z) : list Z * rng_state R :=
  match classes with
  | [] => ([], s)
  | c :: cr =>
      let pop := of_class lab idx c in
      let '(part, s1) := if lenZ pop <=? cap then (pop, s) else choice R s pop (Z.to_nat cap) in
      let '(rest, s2) := subsample_loop R s1 lab idx cap cr in
      (part ++ rest, s2)
  end.

(* imbalance.py:44-50: desired count of the class at position i with frequency rank [rank].
   decay rank = int(round(max_count * alpha**rank)) is an arbitrary function (libm power). *)
Definition desired_counts (decay : Z -> nat -> Z) (order : list nat) (counts : list Z) (mn : Z)
  : list Z :=
  let max_count := match order with [] => 0 | i :: _ => nth i counts 0 end in
  fold_left
    (fun d p => update d (snd p)
                  (fun _ => Z.min (Z.max (decay max_count (fst p)) mn) (nth (snd p) counts 0)))
    (combine (seq 0 (length order)) order)
    (map (fun _ => 0) counts).

(* imbalance.py:52-58.  A negative size makes Generator.choice raise ValueError. *)
Fixpoint longtail_loop (R : Rng) (s : rng_state R) (lab : Z -> Z) (idx : list Z)
    (classes desired : list Z) : result (list Z * rng_state R) :=
  match classes, desired with
  | c :: cr, n :: nr =>
      let pop := of_class lab idx c in
      if lenZ pop <=? n then
        do r <- longtail_loop R s lab idx cr nr; Ok (pop ++ fst r, snd r)
      else if n <? 0 then Err ValueError
      else
        let '(ch, s1) := choice R s pop (Z.to_nat n) in
        do r <- longtail_loop R s1 lab idx cr nr; Ok (ch ++ fst r, snd r)
  | _, _ => Ok ([], s)
  end.

(* imbalance.py:8-61 apply_imbalance *)
Definition apply_imbalance (R : Rng) (ord : argsort) (decay : f64 -> Z -> nat -> Z)
    (s : rng_state R) (idx : list Z) (lab : Z -> Z) (spec : imbalance_spec)
  : result (list Z * rng_state R) :=
  match i_kind spec, idx with
  | INone, _ => Ok (sortZ idx, s)
  | _, [] => Ok (sortZ idx, s)
  | ISubsample, _ =>
      match i_max_per_class spec with
      | None => Err ValueError
      | Some cap =>
          if cap <? 1 then Err ValueError
          else
            let '(parts, s1) := subsample_loop R s lab idx cap (uniqueZ (map lab idx)) in
            Ok (sortZ parts, s1)
      end
  | ILongTail, _ =>
      match i_alpha spec with
      | None => Err ValueError
      | Some alpha =>
          if f64_ltb f64_zero alpha && f64_ltb alpha f64_one then
            let '(classes, counts) := unique_counts (map lab idx) in
            let order := ord (map Z.opp counts) in
            let desired := desired_counts (decay alpha) order counts (i_min_per_class spec) in
            do r <- longtail_loop R s lab idx classes desired;
            Ok (sortZ (fst r), snd r)
          else Err ValueError
      end
  end.
