(* The vocabulary in which Tri-Net is stated. *)
From Coq Require Import QArith Qminmax Permutation Sorted.
From Verif Require Import Prelude QFacts DeepLossSpec DeepThreshSpec CoMatchSpec TriNetModel.
Local Open Scope Z_scope.
Local Open Scope Q_scope.
Local Open Scope list_scope.

(* target is the indicator of class c plus the positive part of std times the noise, scaled to sum 1 *)
Definition smeared (k : nat) (std : Q) (noise : list Q) (c : Z) (target : list Q) : Prop :=
  length target = k /\
  let bump j := Qmax 0 (std * nth j noise 0) in
  forall j, (j < k)%nat -> nth j target 0 * (1 + Qsum (map bump (seq 0 k))) == nth j (indicator k c) 0 + bump j.

(* xs cut into consecutive batches of at most b rows *)
Definition cut {A} (b : Z) (xs : list A) (bs : list (list A)) : Prop :=
  concat bs = xs /\ forall l, In l bs -> l <> [] /\ (lenZ l <= b)%Z.

(* one pass over a training set: every example is in exactly one batch, of at most b; a batch of one is doubled *)
Definition one_pass {X} (b : Z) (xs : list X) (targets : list (list Q)) (used : list (list X * list (list Q))) : Prop :=
  exists bs : list (list (X * list Q)), Permutation (concat bs) (combine xs targets) /\
    (forall l, In l bs -> l <> [] /\ (lenZ l <= b)%Z) /\
    used = map (fun l => let l := if Nat.eqb (length l) 1 then l ++ l else l in (map fst l, map snd l)) bs.

Section Rel.
Context {X M : Type}.
Variable softmax : list Q -> list Q.
Variable argmax : list Q -> Z.
Variable dx : X.
Variable score : M -> nat -> X -> list Q.
Variable noisy : M -> nat -> nat -> list X -> (list (list Q) * list (list Q)) * M.
Variable learn : M -> nat -> bool -> list X -> list (list Q) -> M.
Variable cfg : config.
Variable X_l X_u : list X.
Variable y_l : list Z.
Variable k : nat.

(* in state m, heads j and h both find class c the most probable for the row, with a mean probability of at least sigma *)
Definition agreed (m : M) (j h : nat) (sigma : Q) (x : X) (c : Z) : Prop :=
  argmax (softmax (score m j x)) = c /\ argmax (softmax (score m h x)) = c /\
  2 * sigma <= top (softmax (score m j x)) + top (softmax (score m h x)).
(* the rows of the pool (by number) on which they agree, in the pool's order, with their class *)
Definition agreement (m : M) (j h : nat) (sigma : Q) (pool : list X) (picked : list (nat * Z)) : Prop :=
  StronglySorted lt (map fst picked) /\
  forall i c, In (i, c) picked <-> (i < length pool)%nat /\ agreed m j h sigma (nth i pool dx) c.

(* the classes heads j and h give together to the rows of some batches in training mode *)
Inductive said_pass (j h : nat) : M -> list (list X) -> list Z -> M -> Prop :=
| said_none : forall m, said_pass j h m [] [] m
| said_batch : forall m b rest lj lh m1 more m2, noisy m j h b = ((lj, lh), m1) -> said_pass j h m1 rest more m2 ->
    said_pass j h m (b :: rest)
      (map (fun r => argmax (map (fun c => (nth c (softmax (nth r lj [])) 0 + nth c (softmax (nth r lh [])) 0) / 2) (seq 0 (length (nth r lj []))))) (seq 0 (length b)) ++ more) m2.
Inductive said_passes (j h : nat) (bs : list (list X)) : M -> list (list Z) -> M -> Prop :=
| passes_none : forall m, said_passes j h bs m [] m
| passes_one : forall m p m1 more m2, said_pass j h m bs p m1 -> said_passes j h bs m1 more m2 -> said_passes j h bs m (p :: more) m2.
(* in how many passes row r was given another class than c *)
Definition differs (preds : list (list Z)) (r : nat) (c : Z) : Z := lenZ (filter (fun p => negb (nth r p 0%Z =? c)%Z) preds).
(* of the candidates (row number, class), those whose class is contradicted in at most the given fraction of the passes *)
Definition stable (passes : Z) (fraction : Q) (preds : list (list Z)) (cand : list (nat * Z)) : list (nat * Z) :=
  map (fun r => nth r cand (0%nat, 0%Z))
    (filter (fun r => Qle_bool (inject_Z (differs preds r (snd (nth r cand (0%nat, 0%Z))))) (inject_Z passes * fraction)) (seq 0 (length cand))).
Definition filtered (j h : nat) (pool : list X) (passes : Z) (m : M) (cand kept : list (nat * Z)) (m' : M) : Prop :=
  ((passes <= 1)%Z -> kept = cand /\ m' = m) /\
  ((1 < passes)%Z -> exists bs preds, cut (batch cfg) (map (fun p => nth (fst p) pool dx) cand) bs /\ lenZ preds = passes /\
     said_passes j h bs m preds m' /\ kept = stable passes (drop_fraction cfg) preds cand).

(* training head v on some examples: the job recorded and the state after it *)
Definition trained (v : nat) (shared : bool) (xs : list X) (targets : list (list Q)) (epochs : Z) (m : M) (jb : @job X) (m' : M) : Prop :=
  j_head jb = v /\ j_shared jb = shared /\ j_rows jb = xs /\ j_targets jb = targets /\ lenZ (j_epochs jb) = epochs /\
  (forall e, In e (j_epochs jb) -> one_pass (batch cfg) xs targets e) /\
  m' = fold_left (fun m b => learn m v shared (fst b) (snd b)) (concat (j_epochs jb)) m.

(* head v is trained on the labelled rows and on the pool rows labelled by heads j and h *)
Definition pool_job (v j h : nat) (sigma : Q) (pool : list X) (m : M) (jb : @job X) (m' : M) : Prop :=
  exists picked steady kept m1 m2,
    agreement m j h sigma pool picked /\
    filtered j h pool (stability_passes cfg) m picked steady m1 /\
    filtered j h pool (des_passes cfg) m1 steady kept m2 /\
    trained v (Nat.eqb v 0) (X_l ++ map (fun p => nth (fst p) pool dx) kept) (map (indicator k) (y_l ++ map snd kept)) (train_epochs cfg) m2 jb m'.

(* every head, with the shared network, is trained on the labelled rows with its own smeared labels *)
Definition smear_job (v : nat) (noise : list (list Q)) (m : M) (jb : @job X) (m' : M) : Prop :=
  exists targets, length targets = length y_l /\
    (forall r, (r < length y_l)%nat -> smeared k (smear_std cfg) (nth r noise []) (nth r y_l 0%Z) (nth r targets [])) /\
    trained v true X_l targets (init_epochs cfg) m jb m'.
Definition smear_jobs (noise : nat -> list (list Q)) (m : M) (jobs : list (@job X)) (m' : M) : Prop :=
  exists j0 j1 j2 m1 m2, jobs = [j0; j1; j2] /\ smear_job 0 (noise 0%nat) m j0 m1 /\ smear_job 1 (noise 1%nat) m1 j1 m2 /\ smear_job 2 (noise 2%nat) m2 j2 m'.

Definition round_ok (noise : nat -> list (list Q)) (r : @round X) (m m' : M) : Prop :=
  match r with
  | Tuned jobs => smear_jobs noise m jobs m'
  | Pooled sigma pool jobs => exists j0 j1 j2 m1 m2, jobs = [j0; j1; j2] /\
      pool_job 0 1 2 sigma pool m j0 m1 /\ pool_job 1 0 2 sigma pool m1 j1 m2 /\ pool_job 2 0 1 sigma pool m2 j2 m'
  end.

(* the number of fine-tuning rounds among some *)
Definition tunings (rs : list (@round X)) : Z := lenZ (filter (fun r => match r with Tuned _ => true | _ => false end) rs).
(* the round number t (counted from 1) after the rounds [before]: fine-tuning when the pool is complete and the interval
   divides t; otherwise a pool round with the threshold that has decayed with every fine-tuning, lowered by sigma_os right
   after the labelled-only training, and kept in [0, 1] *)
Definition scheduled (t : Z) (before : list (@round X)) (r : @round X) : Prop :=
  let full := (lenZ X_u <= pool_base cfg * 2 ^ t)%Z in
  match r with
  | Tuned _ => full /\ (0 < interval cfg)%Z /\ (interval cfg | t)%Z
  | Pooled sigma pool _ =>
      ~ (full /\ (0 < interval cfg)%Z /\ (interval cfg | t)%Z) /\
      (let base := Qmax 0 (sigma0 cfg - inject_Z (tunings before) * sigma_decay cfg) in
       let fresh := match rev before with [] => true | Tuned _ :: _ => true | Pooled _ _ _ :: _ => false end in
       sigma == Qmin 1 (Qmax 0 (base - (if fresh then sigma_os cfg else 0)))) /\
      (full -> pool = X_u) /\
      (~ full -> exists idx, NoDup idx /\ (forall i, In i idx -> (i < length X_u)%nat) /\ lenZ idx = (pool_base cfg * 2 ^ t)%Z /\ pool = map (fun i => nth i X_u dx) idx)
  end.
End Rel.

(* the arguments a fit accepts *)
Definition numbers_ok (cfg : config) : Prop :=
  (0 < pool_base cfg)%Z /\ (0 < max_rounds cfg)%Z /\ (0 < batch cfg)%Z /\ (0 < init_epochs cfg)%Z /\ (0 < train_epochs cfg)%Z /\
  (0 < des_passes cfg)%Z /\ (0 < stability_passes cfg)%Z /\ 0 <= smear_std cfg /\ 0 <= sigma0 cfg <= 1 /\ 0 <= sigma_os cfg /\
  0 <= sigma_decay cfg /\ 0 <= drop_fraction cfg <= 1.
Definition apart (a b : list Z) : Prop := forall x, In x a -> In x b -> False.
Definition bundles_ok (shared : list Z) (heads : list (list Z)) : Prop :=
  exists h0 h1 h2, heads = [h0; h1; h2] /\ apart shared h0 /\ apart shared h1 /\ apart shared h2 /\ apart h0 h1 /\ apart h0 h2 /\ apart h1 h2.
(* the greatest label is k - 1 *)
Definition classes (y : list Z) (k : nat) : Prop := In (Z.of_nat k - 1)%Z y /\ forall c, In c y -> (c < Z.of_nat k)%Z.

(* contracts on the networks: outputs have the head's width, one row per row of the batch *)
Definition nets_ok {X M} (head_width : nat -> nat) (score : M -> nat -> X -> list Q)
    (noisy : M -> nat -> nat -> list X -> (list (list Q) * list (list Q)) * M) : Prop :=
  (forall m h x, length (score m h x) = head_width h) /\
  (forall m j h xs, table (length xs) (head_width j) (fst (fst (noisy m j h xs))) /\ table (length xs) (head_width h) (snd (fst (noisy m j h xs)))).
