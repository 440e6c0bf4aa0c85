(* The vocabulary in which the averaging methods are stated. *)
From Coq Require Import QArith Qminmax.
From Verif Require Import Prelude QFacts SamplingSpec DeepLossSpec DeepThreshSpec DeepEmaModel.
Local Open Scope Q_scope.

(* the number of warm-up steps: the given fraction of all steps, rounded, but at least one; none if the fraction is not positive *)
Definition ramp_length (fraction : Q) (total m : Z) : Prop :=
  (fraction <= 0 -> m = 0%Z) /\
  (0 < fraction -> exists r, nearest_even (fraction * inject_Z total) r /\ m = Z.max 1 r).
(* the factor at step t (counted from 0) of a ramp of m steps: t/m below m, 1 from there on *)
Definition ramp (m t : Z) (v : Q) : Prop :=
  ((t < m)%Z -> v * inject_Z m == inject_Z t) /\ ((m <= t)%Z -> v == 1).

(* all the entries f(r, c) of an n x k table *)
Definition entries_of (n k : nat) (f : nat -> nat -> Q) : list Q := flat_map (fun r => map (f r) (seq 0 k)) (seq 0 n).
Definition cell (m : list (list Q)) (r c : nat) : Q := nth c (nth r m []) 0.
Definition square (x : Q) : Q := x * x.

(* what one step says about rows of the unlabelled data: the rows' numbers, and their class probabilities under the weak
   and under the strong augmentation *)
Definition view : Type := (list nat * (list (list Q) * list (list Q)))%type.
(* the average of the two probabilities of class c for row i, if the step looks at row i *)
Definition said (i c : nat) (v : view) : option Q :=
  match find (fun r => Nat.eqb (nth r (fst v) 0%nat) i) (seq 0 (length (fst v))) with
  | Some r => Some ((cell (fst (snd v)) r c + cell (snd (snd v)) r c) / 2)
  | None => None
  end.
(* the latest thing said, 0 if nothing was *)
Definition last_said (i c : nat) (steps : list view) : Q :=
  fold_left (fun acc v => match said i c v with Some x => x | None => acc end) steps 0.
(* the exponential moving average over some epochs, starting from 0 *)
Definition past_average (alpha : Q) (past : list (list view)) (i c : nat) : Q :=
  running (fun x => x) alpha 0 (map (last_said i c) past).

(* step s of epoch e, when an epoch has m steps *)
Definition time (m : Z) (e s : nat) : Z := (Z.of_nat e * m + Z.of_nat s)%Z.
(* what epoch e says, given the batches of the fit and the network's probabilities at every step *)
Definition epoch_views (m : Z) (prob_w prob_s : Z -> list nat -> list (list Q)) (epochs : list (list (list nat * list nat))) (e : nat) : list view :=
  map (fun s => let iu := snd (nth s (nth e epochs []) ([], [])) in
                (iu, (prob_w (time m e s) iu, prob_s (time m e s) iu)))
      (seq 0 (length (nth e epochs []))).

(* Beta(alpha, alpha).sample((n,)): n numbers in [0, 1] *)
Definition draws_ok (draws : list Q) (n : nat) : Prop := length draws = n /\ forall x, In x draws -> 0 <= x <= 1.
(* m is a row by row mixture of the rows of l with other rows of l *)
Definition mixture (lam : list Q) (partner : list nat) (k : nat) (l m : list (list Q)) : Prop :=
  length m = length l /\
  forall r, (r < length l)%nat -> length (nth r m []) = k /\
    forall c, (c < k)%nat -> cell m r c == nth r lam 0 * cell l r c + (1 - nth r lam 0) * cell l (nth r partner 0%nat) c.

(* MixMatch: the targets of a batch before mixing.  n_l labelled rows, then the n_u unlabelled rows twice; an unlabelled
   row's target is the sharpened average of its two predictions (the plain average at temperature 1) *)
Definition guess (pow : Q -> Q) (one : bool) (w s t : list Q) : Prop :=
  exists p, length p = length w /\ (forall c, nth c p 0 == (nth c w 0 + nth c s 0) / 2) /\
            if one then t = p else sharpened pow p t.
Definition mix_targets (pow : Q -> Q) (one : bool) (k : nat) (yb : list Z) (pw ps targets : list (list Q)) : Prop :=
  let n_l := length yb in let n_u := length pw in
  table (n_l + n_u + n_u) k targets /\
  (forall r c, (r < n_l)%nat -> (c < k)%nat -> cell targets r c == if (Z.of_nat c =? nth r yb 0%Z)%Z then 1 else 0) /\
  (forall r, (r < n_u)%nat -> guess pow one (nth r pw []) (nth r ps []) (nth (n_l + r) targets []) /\
                             nth (n_l + n_u + r) targets [] = nth (n_l + r) targets []).

(* Temporal Ensembling: what the epochs before epoch e said, and the target of epoch e *)
Definition said_before (m : Z) (prob_w prob_s : Z -> list nat -> list (list Q)) (epochs : list (list (list nat * list nat))) (e : nat) : list (list view) :=
  map (epoch_views m prob_w prob_s epochs) (seq 0 e).
Definition te_target (alpha : Q) (past : list (list view)) (i c : nat) : Q :=
  past_average alpha past i c / Qmax (1 - alpha ^ (lenZ past + 1)) (1 # 1000000000000).

(* two networks of the same architecture: parameter tensors of the same shapes on the same devices *)
Definition same_params (a b : list tensor) : Prop := Forall2 (fun x y => tshape x = tshape y /\ tdevice x = tdevice y /\ length (tdata x) = length (tdata y)) a b.
(* entry j of parameter tensor p *)
Definition param (p j : nat) (l : list tensor) : Q := nth j (tdata (nth p l {| tshape := []; tdevice := 0; tdata := [] |})) 0.
