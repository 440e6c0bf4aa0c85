(* Vocabulary for the views of a graph. *)
From Coq Require Import QArith Qminmax.
From Verif Require Import Prelude QFacts TransModel TransSpec GvModel PcaSpec.
Local Open Scope Q_scope.
Local Open Scope list_scope.

(* ---- diffusion *)
(* the edges leaving node i, their total weight, and the weighted mean of the features at their ends
   (a total weight below [tiny] is replaced by [tiny]) *)
Definition out_edges (E : list edge) (i : nat) : list edge := filter (fun e => (e_src e =? Z.of_nat i)%Z) E.
Definition out_weight (E : list edge) (i : nat) : Q := Qsum (map e_w (out_edges E i)).
Definition neighbour_mean (tiny : Q) (E : list edge) (H : nat -> nat -> Q) (i c : nat) : Q :=
  Qsum (map (fun e => e_w e * H (Z.to_nat (e_dst e)) c) (out_edges E i)) / Qmax (out_weight E i) tiny.
(* one step of the recurrence in the documentation *)
Definition spread (tiny : Q) (E : list edge) (a : Q) (X H : nat -> nat -> Q) (i c : nat) : Q :=
  (1 - a) * neighbour_mean tiny E H i c + a * X i c.
(* edges between nodes of the graph; no two parallel edges *)
Definition inside (n : Z) (E : list edge) : Prop := forall e, In e E -> (0 <= e_src e < n)%Z /\ (0 <= e_dst e < n)%Z.
Definition simple (E : list edge) : Prop := NoDup (map fst E).
(* a node is reached from i along at most t edges *)
Inductive within_hops (E : list edge) : nat -> nat -> nat -> Prop :=
| hop_here : forall t i, within_hops E t i i
| hop_edge : forall t i e j, In e (out_edges E i) -> within_hops E t (Z.to_nat (e_dst e)) j -> within_hops E (S t) i j.

(* ---- walks *)
Definition arrow (n : Z) (ei : list (Z * Z)) (u v : nat) : Prop :=
  In (Z.of_nat u, Z.of_nat v) ei /\ (Z.of_nat u < n)%Z /\ (Z.of_nat v < n)%Z.
(* a move along an edge, or a stay at a node without edges to follow *)
Definition move (n : Z) (ei : list (Z * Z)) (u v : nat) : Prop := arrow n ei u v \/ (v = u /\ forall x, ~ arrow n ei u x).
Fixpoint moves (step : nat -> nat -> Prop) (l : list nat) : Prop :=
  match l with u :: (v :: _) as r => step u v /\ moves step r | _ => True end.
(* a chain of moves leads from s to u *)
Inductive leads (step : nat -> nat -> Prop) (s : nat) : nat -> Prop :=
| leads_here : leads step s s
| leads_on : forall u v, leads step s u -> step u v -> leads step s v.
(* np.random: a choice is one of the items; with probabilities, one of positive probability *)
Definition choice_ok {rng} (choice : rng -> list nat -> nat * rng) : Prop := forall g l, l <> [] -> In (fst (choice g l)) l.
Definition choice_p_ok {rng} (choice_p : rng -> list nat -> list Q -> nat * rng) : Prop :=
  forall g l p, length p = length l -> (forall x, In x p -> 0 <= x) -> Qsum p == 1 ->
    exists i, (i < length l)%nat /\ fst (choice_p g l p) = nth i l O /\ 0 < nth i p 0.
(* the bias of a node2vec move from a node reached from [prev] *)
Definition return_bias (p q : Q) (n : Z) (ei : list (Z * Z)) (prev v : nat) (b : Q) : Prop :=
  (v = prev /\ b == / p) \/ (v <> prev /\ arrow n ei prev v /\ b == 1) \/ (v <> prev /\ ~ arrow n ei prev v /\ b == / q).

(* ---- co-occurrences: the positions i, j of a walk, not the same and at most w apart, that show u and v *)
Definition near (w : Z) (i j : nat) : bool := negb (Nat.eqb i j) && (Z.abs (Z.of_nat i - Z.of_nat j) <=? w)%Z.
Definition shows (w : Z) (u v : nat) (l : list nat) : Z :=
  lenZ (filter (fun ij => near w (fst ij) (snd ij) && Nat.eqb (nth (fst ij) l O) u && Nat.eqb (nth (snd ij) l O) v)
               (list_prod (seq 0 (length l)) (seq 0 (length l)))).
Definition together (w : Z) (walks : list (list nat)) (u v : nat) : Z := sumZ (map (shows w u v) walks).
Definition together_with (w : Z) (walks : list (list nat)) (n u : nat) : Z := sumZ (map (together w walks u) (seq 0 n)).
Definition together_all (w : Z) (walks : list (list nat)) (n : nat) : Z := sumZ (map (together_with w walks n) (seq 0 n)).
(* the pointwise mutual information of u and v, 0 when negative or when they are never together *)
Definition positive_pmi (log : Q -> Q) (w : Z) (walks : list (list nat)) (n u v : nat) (x : Q) : Prop :=
  if (together w walks u v =? 0)%Z then x == 0
  else x == Qmax 0 (log (inject_Z (together w walks u v) * inject_Z (together_all w walks n) /
                         (inject_Z (together_with w walks n u) * inject_Z (together_with w walks n v)))).

(* U, s are the first two factors of a singular value decomposition U diag(s) V of the n x n matrix M *)
Definition svd_factors (n : nat) (M U : mat) (s : list Q) (V : nat -> nat -> Q) : Prop :=
  length s = n /\
  (forall a b, (a < n)%nat -> (b < n)%nat -> sum_to n (fun i => entry U i a * entry U i b) == delta a b) /\
  (forall a b, (a < n)%nat -> (b < n)%nat -> sum_to n (fun j => V a j * V b j) == delta a b) /\
  (forall a b, (a <= b)%nat -> (b < n)%nat -> 0 <= nth b s 0 <= nth a s 0) /\
  forall i j, (i < n)%nat -> (j < n)%nat -> entry M i j == sum_to n (fun a => entry U i a * nth a s 0 * V a j).
(* [num] walks from every node, in the order of the nodes, each of the given length and made of moves *)
Definition walks_from_all (n : Z) (ei : list (Z * Z)) (num len : Z) (ws : list (list nat)) : Prop :=
  exists W : nat -> nat -> list nat, ws = flat_map (fun s => map (W s) (seq 0 (Z.to_nat num))) (seq 0 (Z.to_nat n)) /\
    forall s k, (s < Z.to_nat n)%nat -> (Z.of_nat k < num)%Z -> hd_error (W s k) = Some s /\ lenZ (W s k) = len /\ moves (move n ei) (W s k).
