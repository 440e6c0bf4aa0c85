(* Model of Tri-Net (src/modssc/inductive/methods/trinet.py): output smearing, the pool, pseudo-labels by agreement of two
   heads, the dropout filter, the training of a head, the rounds of fit and the prediction.  Rows are of any type; the three
   heads and the network they share form one state of type M.  In evaluation mode a head scores rows one by one; in
   training mode its output may depend on the batch and change the state.  Graph inputs and devices are left out. *)
From Coq Require Import QArith Qminmax Qround.
From Verif Require Import Prelude QFacts DeepBatchModel DeepLossModel DeepEmaModel.
Local Open Scope Z_scope.
Local Open Scope Q_scope.
Local Open Scope list_scope.

(* torch.nn.functional.one_hot (torch_support.py 74-78): RuntimeError for a class outside 0..k-1 *)
Definition one_hot_rows (k : nat) (labels : list Z) : result (list (list Q)) :=
  if existsb (fun c => (c <? 0)%Z || (Z.of_nat k <=? c)%Z) labels then Err RuntimeError
  else Ok (map (one_hot k) labels).

(* _output_smearing (trinet.py 76-91); [noise]: the torch.randn matrix *)
Definition smear (k : nat) (std : Q) (noise : list (list Q)) (labels : list Z) : result (list (list Q)) :=
  do hot <- one_hot_rows k labels;
  if Qle_bool std 0 then Ok hot
  else Ok (zipw (fun o z =>
         let s := zipw (fun a b => a + Qmax (b * std) 0) o z in
         let d := Qmax (Qsum s) tiny in map (fun v => v / d) s) hot noise).

(* X[mask] *)
Definition select {A} (mask : list bool) (l : list A) : list A := map snd (filter fst (combine mask l)).

(* TriNetSpec (352-372) without the bundles; freeze_bn is part of [noisy] *)
Record config := {
  sigma0 : Q; sigma_os : Q; sigma_decay : Q; smear_std : Q; pool_base : Z; max_rounds : Z; interval : Z; batch : Z;
  init_epochs : Z; train_epochs : Z; des_passes : Z; drop_fraction : Q; stability_passes : Z }.

Section TriNet.
Context {St X M : Type}.
Variable G : Gen St.
Variable seeded : Z -> St.                                (* torch.Generator().manual_seed(s) *)
Variable randn : Z -> nat -> nat -> list (list Q).        (* randn((n, k)) of a generator seeded with s *)
Variable softmax : list Q -> list Q.
Variable argmax : list Q -> Z.
Variable dx : X.
Variable score : M -> nat -> X -> list Q.                 (* head h's logits for a row, in evaluation mode *)
Variable noisy : M -> nat -> nat -> list X -> (list (list Q) * list (list Q)) * M.  (* heads j, h on a batch in training mode *)
Variable learn : M -> nat -> bool -> list X -> list (list Q) -> M.  (* one optimiser step of head v, with or without the shared network *)
Variable head_width : nat -> nat.                         (* number of outputs of head h *)

(* _sample_pool (94-102) *)
Definition sample_pool (xs : list X) (n_pool : Z) (s : St) : list X :=
  if (lenZ xs <=? n_pool)%Z then xs
  else map (fun i => nth i xs dx) (firstn (Z.to_nat n_pool) (fst (g_perm G s (length xs)))).

(* one pass of _dropout_filter's inner loop (142-155): the classes predicted with dropout.  The checks on the number of
   dimensions are left out. *)
Fixpoint noisy_pass (m : M) (j h : nat) (xs : list X) (b : Z) (starts : list Z) : result (list Z * M) :=
  match starts with
  | [] => Ok ([], m)
  | st :: rest =>
      let '((lj, lh), m1) := noisy m j h (slice xs st b) in
      if negb (same_shape lj lh) then Err InductiveValidationError
      else
        let pred := zipw (fun p q => argmax (zipw (fun a b => (a + b) / 2) (softmax p) (softmax q))) lj lh in
        do ' (more, m2) <- noisy_pass m1 j h xs b rest;
        Ok (pred ++ more, m2)
  end.
(* the loop over the passes (141): counts += (pred != labels) *)
Fixpoint noisy_passes (passes : nat) (m : M) (j h : nat) (xs : list X) (labels : list Z) (b : Z) (counts : list Z) : result (list Z * M) :=
  match passes with
  | O => Ok (counts, m)
  | S p =>
      do starts <- py_range (lenZ xs) b;
      do ' (pred, m1) <- noisy_pass m j h xs b starts;
      let counts := zipw (fun c pl => if (fst pl =? snd pl)%Z then c else (c + 1)%Z) counts (combine pred labels) in
      noisy_passes p m1 j h xs labels b counts
  end.
(* _dropout_filter (105-165) *)
Definition dropout_filter (m : M) (j h : nat) (xs : list X) (labels : list Z) (passes : Z) (fraction : Q) (b : Z) : result (list bool * M) :=
  if (lenZ xs =? 0)%Z || (passes <=? 1)%Z then Ok (repeat true (length xs), m)
  else
    let most := Qfloor (inject_Z passes * fraction) in
    do ' (counts, m1) <- noisy_passes (Z.to_nat passes) m j h xs labels b (repeat 0%Z (length xs));
    Ok (map (fun c => (c <=? most)%Z) counts, m1).

(* the loop of _label_unlabeled (195-219): indices into the pool and labels *)
Fixpoint label_batches (m : M) (j h : nat) (pool : list X) (sigma_t : Q) (b : Z) (starts : list Z) : result (list (nat * Z)) :=
  match starts with
  | [] => Ok []
  | st :: rest =>
      if negb (Nat.eqb (head_width j) (head_width h)) then Err InductiveValidationError
      else
        let rows := slice pool st b in
        let picked := flat_map (fun ix =>
          let pj := softmax (score m j (snd ix)) in let ph := softmax (score m h (snd ix)) in
          let agree := (argmax pj =? argmax ph)%Z in
          if agree && Qle_bool sigma_t ((row_max pj + row_max ph) / 2)
          then [((Z.to_nat st + fst ix)%nat, argmax pj)] else []) (combine (seq 0 (length rows)) rows) in
        do more <- label_batches m j h pool sigma_t b rest;
        Ok (picked ++ more)
  end.
(* _label_unlabeled (168-250) *)
Definition label_unlabeled (m : M) (j h : nat) (pool : list X) (sigma_t : Q) (passes : Z) (fraction : Q) (b : Z) : result (list X * list Z * M) :=
  do starts <- py_range (lenZ pool) b;
  do picked <- label_batches m j h pool sigma_t b starts;
  let xs := map (fun p => nth (fst p) pool dx) picked in
  let labels := map snd picked in
  if (1 <? passes)%Z then
    do ' (keep, m1) <- dropout_filter m j h xs labels passes fraction b;
    Ok (select keep xs, select keep labels, m1)
  else Ok (xs, labels, m).

(* the loop over the batches of an epoch in _train_head (282-315): a batch of one row is doubled.  The product of targets
   and log-probabilities broadcasts a width of 1 and refuses other differences. *)
Fixpoint learn_batches (m : M) (v : nat) (shared : bool) (bs : list (list X * list (list Q))) : result (list (list X * list (list Q)) * M) :=
  match bs with
  | [] => Ok ([], m)
  | (xb, yb) :: rest =>
      let '(xe, ye) := if Nat.eqb (length xb) 1 then (xb ++ xb, yb ++ yb) else (xb, yb) in
      if negb (Nat.eqb (width ye) (head_width v) || Nat.eqb (width ye) 1 || Nat.eqb (head_width v) 1) then Err RuntimeError
      else
        do ' (used, m1) <- learn_batches (learn m v shared xe ye) v shared rest;
        Ok ((xe, ye) :: used, m1)
  end.
Fixpoint learn_epochs (epochs : nat) (m : M) (v : nat) (shared : bool) (xs : list X) (targets : list (list Q)) (b steps : Z) (s : St)
    : result (list (list (list X * list (list Q))) * M) :=
  match epochs with
  | O => Ok ([], m)
  | S e =>
      do ' (idx, s1) <- cycle_batch_indices G (length xs) b steps s;
      do ' (used, m1) <- learn_batches m v shared (map (fun i => (rows xs i dx, rows targets i [])) idx);
      do ' (more, m2) <- learn_epochs e m1 v shared xs targets b steps s1;
      Ok (used :: more, m2)
  end.

(* a call of _train_head: the head, whether the shared network is trained too, the rows with their targets, and
   the batches of every epoch *)
Record job := { j_head : nat; j_shared : bool; j_rows : list X; j_targets : list (list Q);
                j_epochs : list (list (list X * list (list Q))) }.
(* _train_head (253-315) *)
Definition train_head (m : M) (v : nat) (shared : bool) (xs : list X) (targets : list (list Q)) (b epochs seed : Z) : result (job * M) :=
  do ' (used, m1) <- (if (lenZ xs =? 0)%Z then Ok ([], m)
                      else learn_epochs (Z.to_nat epochs) m v shared xs targets b (num_batches (lenZ xs) b) (seeded seed));
  Ok ({| j_head := v; j_shared := shared; j_rows := xs; j_targets := targets; j_epochs := used |}, m1).

Variable cfg : config.
Variable X_l X_u : list X.
Variable y_l : list Z.
Variable k : nat.                                         (* n_classes *)
Variable seed : Z.

(* y_os_sets and the loop that trains every head on its own set (472-492, 508-534); all three sets are drawn first *)
Fixpoint train_smeared (m : M) (sets : list (nat * list (list Q))) (seed0 : Z) : result (list job * M) :=
  match sets with
  | [] => Ok ([], m)
  | (i, y_os) :: rest =>
      do ' (jb, m1) <- train_head m i true X_l y_os (batch cfg) (init_epochs cfg) (seed0 + Z.of_nat i);
      do ' (more, m2) <- train_smeared m1 rest seed0;
      Ok (jb :: more, m2)
  end.
Definition smear_round (m : M) (noise_seed train_seed : Z) : result (list job * M) :=
  do s0 <- smear k (smear_std cfg) (randn (noise_seed + 0) (length y_l) k) y_l;
  do s1 <- smear k (smear_std cfg) (randn (noise_seed + 1) (length y_l) k) y_l;
  do s2 <- smear k (smear_std cfg) (randn (noise_seed + 2) (length y_l) k) y_l;
  train_smeared m [(0%nat, s0); (1%nat, s1); (2%nat, s2)] train_seed.

(* the pseudo-labels for head v and its training (548-600) *)
Definition train_on_pool (m : M) (t : Z) (v j h : nat) (pool : list X) (sigma_t : Q) (hot_l : list (list Q)) : result (job * M) :=
  do ' (xs, labels, m1) <- label_unlabeled m j h pool sigma_t (stability_passes cfg) (drop_fraction cfg) (batch cfg);
  do ' (xs, labels, m2) <-
    (if (1 <? des_passes cfg)%Z && (0 <? lenZ xs)%Z then
       do ' (keep, m2) <- dropout_filter m1 j h xs labels (des_passes cfg) (drop_fraction cfg) (batch cfg);
       Ok (select keep xs, select keep labels, m2)
     else Ok (xs, labels, m1));
  do ' (x_hat, y_hat) <-
    (if (0 <? lenZ xs)%Z then do hot <- one_hot_rows k labels; Ok (X_l ++ xs, hot_l ++ hot) else Ok (X_l, hot_l));
  train_head m2 v (Nat.eqb v 0) x_hat y_hat (batch cfg) (train_epochs cfg) (seed + 4000 + t * 10 + Z.of_nat v).

Inductive round := Tuned (jobs : list job) | Pooled (sigma_t : Q) (pool : list X) (jobs : list job).

(* the rounds (498-605) *)
Fixpoint run_rounds (ts : list Z) (flag_os : bool) (sigma : Q) (hot_l : list (list Q)) (m : M) : result (list round * M) :=
  match ts with
  | [] => Ok ([], m)
  | t :: rest =>
      let n_u := lenZ X_u in
      let n_pool := Z.min (pool_base cfg * 2 ^ t) n_u in
      if (n_pool =? n_u)%Z && (0 <? interval cfg)%Z && (t mod interval cfg =? 0)%Z then
        do ' (jobs, m1) <- smear_round m (seed + 1000 + t * 10) (seed + 2000 + t * 10);
        do ' (more, m2) <- run_rounds rest true (Qmax 0 (sigma - sigma_decay cfg)) hot_l m1;
        Ok (Tuned jobs :: more, m2)
      else
        let sigma_t := if flag_os then sigma - sigma_os cfg else sigma in
        let sigma_t := Qmin 1 (Qmax 0 sigma_t) in
        let pool := sample_pool X_u n_pool (seeded (seed + 3000 + t)) in
        do ' (j0, m0) <- train_on_pool m t 0 1 2 pool sigma_t hot_l;
        do ' (j1, m1) <- train_on_pool m0 t 1 0 2 pool sigma_t hot_l;
        do ' (j2, m2) <- train_on_pool m1 t 2 0 1 pool sigma_t hot_l;
        do ' (more, m3) <- run_rounds rest false sigma hot_l m2;
        Ok (Pooled sigma_t pool [j0; j1; j2] :: more, m3)
  end.
End TriNet.
Arguments j_head {X}. Arguments j_shared {X}. Arguments j_rows {X}. Arguments j_targets {X}. Arguments j_epochs {X}.

(* the checks on the numbers (440-465) *)
Definition tn_numbers (cfg : config) : result unit :=
  if (pool_base cfg <=? 0)%Z then Err InductiveValidationError
  else if (max_rounds cfg <=? 0)%Z then Err InductiveValidationError
  else if (batch cfg <=? 0)%Z then Err InductiveValidationError
  else if (init_epochs cfg <=? 0)%Z then Err InductiveValidationError
  else if (train_epochs cfg <=? 0)%Z then Err InductiveValidationError
  else if (des_passes cfg <=? 0)%Z then Err InductiveValidationError
  else if (stability_passes cfg <=? 0)%Z then Err InductiveValidationError
  else if negb (Qle_bool 0 (smear_std cfg)) then Err InductiveValidationError
  else if negb (Qle_bool 0 (sigma0 cfg)) || negb (Qle_bool (sigma0 cfg) 1) then Err InductiveValidationError
  else if negb (Qle_bool 0 (sigma_os cfg)) then Err InductiveValidationError
  else if negb (Qle_bool 0 (sigma_decay cfg)) then Err InductiveValidationError
  else if negb (Qle_bool 0 (drop_fraction cfg) && Qle_bool (drop_fraction cfg) 1) then Err InductiveValidationError
  else Ok tt.

(* parameters of the shared network and of the heads must be disjoint (331-347); [ids]: the parameters of the shared network
   and of each head *)
Definition overlap (a b : list Z) : bool := existsb (fun x => memZ x b) a.
Definition check_bundles (shared : list Z) (heads : list (list Z)) : result unit :=
  match heads with
  | [h0; h1; h2] =>
      if existsb (overlap shared) heads then Err InductiveValidationError
      else if overlap h0 h1 || overlap h0 h2 || overlap h1 h2 then Err InductiveValidationError
      else Ok tt
  | _ => Err InductiveValidationError
  end.

(* TriNetMethod.fit (397-608): the initial training, the rounds and the final state.  y_l has as many entries as X_l. *)
Definition tn_fit {St X M : Type} (G : Gen St) (seeded : Z -> St) (randn : Z -> nat -> nat -> list (list Q)) softmax argmax (dx : X)
    (score : M -> nat -> X -> list Q) noisy learn (head_width : nat -> nat) (cfg : config) (shared_ids : list Z) (head_ids : list (list Z))
    (X_l X_u : list X) (y_l : list Z) (seed : Z) (m : M) : result (list job * list round * M) :=
  if (lenZ X_l =? 0)%Z then Err InductiveValidationError
  else if (lenZ X_u =? 0)%Z then Err InductiveValidationError
  else
    do _ <- check_bundles shared_ids head_ids;
    do _ <- tn_numbers cfg;
    let n_classes := (fold_right Z.max (hd 0%Z y_l) y_l + 1)%Z in
    if existsb (fun c => (c <? 0)%Z) y_l then Err InductiveValidationError
    else
      let k := Z.to_nat n_classes in
      do hot_l <- one_hot_rows k y_l;
      do ' (init, m1) <- smear_round G seeded randn dx learn head_width cfg X_l y_l k m seed (seed + 10);
      do ' (rounds, m2) <- run_rounds G seeded randn softmax argmax dx score noisy learn head_width cfg X_l X_u y_l k seed
                              (map Z.of_nat (seq 1 (Z.to_nat (max_rounds cfg)))) true (sigma0 cfg) hot_l m1;
      Ok (init, rounds, m2).

(* predict_proba (604-668) in batches; [fitted]: fit has been called.  The three heads' probabilities are averaged. *)
Definition average3 (p q r : list Q) : list Q := zipw (fun ab c => (fst ab + snd ab + c) / 3) (combine p q) r.
Definition tn_predict {X M : Type} (softmax : list Q -> list Q) (score : M -> nat -> X -> list Q) (head_width : nat -> nat)
    (fitted : bool) (m : M) (b : Z) (xs : list X) : result (list (list Q)) :=
  if negb fitted then Err RuntimeError
  else
    do starts <- py_range (lenZ xs) b;
    if negb (Nat.eqb (head_width 0%nat) (head_width 1%nat) && Nat.eqb (head_width 1%nat) (head_width 2%nat)) then Err InductiveValidationError
    else Ok (flat_map (fun st => map (fun x => average3 (softmax (score m 0%nat x)) (softmax (score m 1%nat x)) (softmax (score m 2%nat x))) (slice xs st b)) starts).
