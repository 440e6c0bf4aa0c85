(* What GraphHop is supposed to do: distances in the graph, averages over the nodes at a distance, the losses, early stopping
   and the iteration. *)
From Coq Require Import QArith Qminmax.
From Verif Require Import Prelude QFacts TransModel GnnModel HopModel.
From Verif Require Export N2vSpec.
Local Open Scope Z_scope.
Local Open Scope list_scope.
Local Notation length := List.length.

(* ---- distances *)
Inductive path (link : Z -> Z -> Prop) (i : Z) : nat -> Z -> Prop :=
| path_here : path link i 0 i
| path_step k v j : path link i k v -> link v j -> path link i (S k) j.
Definition distance (link : Z -> Z -> Prop) (i j : Z) (k : nat) : Prop := path link i k j /\ forall k', (k' < k)%nat -> ~ path link i k' j.
(* the nodes at distance k from i, each once *)
Definition ring (link : Z -> Z -> Prop) (i : Z) (k : nat) (L : list Z) : Prop := NoDup L /\ forall u, In u L <-> distance link i u k.
(* r is the average of the rows of the nodes at distance k from i, in k columns; zeros when there are none *)
Definition mean_of (l : list Q) : Q := match l with [] => 0%Q | _ => (Qsum l / inject_Z (lenZ l))%Q end.
Definition ring_average (link : Z -> Z -> Prop) (i : Z) (k : nat) (width : nat) (F : mat) (r : list Q) : Prop :=
  length r = width /\ exists L, ring link i k L /\ forall c, (c < width)%nat -> (nth c r 0 == mean_of (map (fun u => entry F (Z.to_nat u) c) L))%Q.
(* the rows of X: the row of F followed by its averages at distance 1, ..., m + 1 *)
Definition hop_input (link : Z -> Z -> Prop) (n width : nat) (F : mat) (m : nat) (X : mat) : Prop :=
  length X = n /\ forall i, (i < n)%nat -> exists avgs, nth i X [] = nth i F [] ++ concat avgs /\ length avgs = S m /\
    forall h, (h < S m)%nat -> ring_average link (Z.of_nat i) (S h) width F (nth h avgs []).

(* ---- losses: lp i c is the log-probability of class c for node i *)
Section Losses.
Variables (n k : nat) (train : nat -> bool) (cls : nat -> nat) (P : nat -> nat -> Q) (expo : Q -> Q) (lp : nat -> nat -> Q).
Definition over (S : nat -> bool) (f : nat -> Q) : Q := Qsum (map (fun i => if S i then f i else 0%Q) (seq 0 n)).
Definition number (S : nat -> bool) : Z := lenZ (filter S (seq 0 n)).
Definition others (i : nat) : bool := negb (train i).
Definition per_class (f : nat -> Q) : Q := Qsum (map f (seq 0 k)).
(* the cross entropy of the labelled nodes *)
Definition label_loss : Q := (over train (fun i => - lp i (cls i)) / inject_Z (number train))%Q.
(* the cross entropy with the pseudo-labels and the entropy of the predictions of the other nodes, per node and class *)
Definition pseudo_loss : Q := (over others (fun i => per_class (fun c => P i c * - lp i c)) / inject_Z (Z.max (number others * Z.of_nat k) 1))%Q.
Definition entropy_loss : Q := (over others (fun i => per_class (fun c => expo (lp i c) * - lp i c)) / inject_Z (Z.max (number others * Z.of_nat k) 1))%Q.
Definition held_out_loss (val : nat -> bool) : Q := over val (fun i => - lp i (cls i))%Q.
End Losses.

(* ---- early stopping: v e is the loss on the validation nodes after epoch e (from 0), None when it is not a number *)
Definition better (delta : Q) (v : nat -> option Q) (e : nat) : Prop :=
  match e with O => True | S a => forall p x, v a = Some p -> v (S a) = Some x -> (x <= p)%Q /\ (delta <= p - x)%Q end.
Definition last_better (delta : Q) (v : nat -> option Q) (e b : nat) : Prop :=
  (b <= e)%nat /\ better delta v b /\ forall c, (b < c <= e)%nat -> ~ better delta v c.
(* n epochs are run: the limit, unless the last one is [patience] epochs after the last one that was better *)
Definition stops (delta : Q) (v : nat -> option Q) (patience : Z) (limit n : nat) : Prop :=
  (0 < n <= limit)%nat /\
  (forall e b, (S e < n)%nat -> last_better delta v e b -> Z.of_nat e - Z.of_nat b < patience) /\
  (n = limit \/ exists b, last_better delta v (n - 1) b /\ patience <= Z.of_nat (n - 1) - Z.of_nat b).

Section Training.
Context {M Op : Type}.
Variable descend : M -> Op -> (M -> option Q) -> M * Op.
Variable adam : M -> Op.
Definition after (L : M -> option Q) (m : M) (e : nat) : M := fst (Nat.iter e (fun s => descend (fst s) (snd s) L) (m, adam m)).
(* m is trained from m0 with the loss L; V is the loss on the validation nodes, if there are any *)
Definition trained (limit : nat) (patience : Z) (delta : Q) (L : M -> option Q) (V : option (M -> option Q)) (m0 m : M) : Prop :=
  match V with
  | None => m = after L m0 limit
  | Some V => (limit = 0%nat /\ m = m0) \/
              exists n b, stops delta (fun e => V (after L m0 (S e))) patience limit n /\ last_better delta (fun e => V (after L m0 (S e))) (n - 1) b /\ m = after L m0 (S b)
  end.
End Training.
(* a loss has this value at the weights m, if the log-probabilities there are numbers *)
Definition numeric {M} (log_prob : M -> list Q -> list (option Q)) (m : M) (X : mat) (n k : nat) (lp : nat -> nat -> Q) : Prop :=
  length X = n /\ forall i, (i < n)%nat -> log_prob m (nth i X []) = map (fun c => Some (lp i c)) (seq 0 k).
Definition measures {M} (log_prob : M -> list Q -> list (option Q)) (L : M -> option Q) (X : mat) (n k : nat) (value : (nat -> nat -> Q) -> Q) : Prop :=
  forall m lp, numeric log_prob m X n k lp -> exists q, L m = Some q /\ (q == value lp)%Q.
(* the class of a label: negative labels count from the end *)
Definition class_of (k : nat) (v : Z) : nat := Z.to_nat (if v <? 0 then v + Z.of_nat k else v).
Definition sel (m : list bool) (i : nat) : bool := nth i m false.
Definition distribution (r : list Q) : Prop := (forall x, In x r -> (0 <= x)%Q) /\ (Qsum r == 1)%Q.

(* ---- the iteration *)
Section Iteration.
Context {M Op G : Type}.
Variable fresh : G -> nat -> nat -> M * G.
Variable adam : M -> Op.
Variable descend : M -> Op -> (M -> option Q) -> M * Op.
Variable log_prob : M -> list Q -> list (option Q).
Variable soft : M -> list Q -> list Q.
Variable temp_soft : Q -> M -> list Q -> list Q.
Variable expo : Q -> Q.
Variable sp : hop_spec.
Variable link : Z -> Z -> Prop.
Variables (n k : nat) (train : list bool) (val : option (list bool)) (y : list Z).
Definition cls (i : nat) : nat := class_of k (nth i y (-1)).
(* m is trained from m0 on the rows of X against the labels and, except at first, the pseudo-labels P *)
Definition trained_on (first : bool) (X P : mat) (m0 m : M) : Prop :=
  exists L V,
    measures log_prob L X n k (fun lp => (label_loss n (sel train) cls lp +
      (if first then 0 else hs_alpha sp * pseudo_loss n k (sel train) (entry P) lp + hs_beta sp * entropy_loss n k (sel train) expo lp))%Q) /\
    match val with
    | Some v => exists V', V = Some V' /\ measures log_prob V' X n k (fun lp => held_out_loss n cls lp (sel v))
    | None => V = None
    end /\
    trained descend adam (Z.to_nat (hs_max_epochs sp)) (hs_patience sp) (hs_min_delta sp) L V m0 m.
(* new models from the generator, one for each input table *)
Inductive new_models : list mat -> G -> list M -> G -> Prop :=
| new_none g : new_models [] g [] g
| new_one X Xs g m g1 ms g2 : fresh g (length (hd [] X)) k = (m, g1) -> new_models Xs g1 ms g2 -> new_models (X :: Xs) g (m :: ms) g2.
(* the weighted sum of the predictions f of the models for node i and class c *)
Definition combined (f : M -> list Q -> list Q) (ws : list Q) (ms : list M) (Xs : list mat) (i c : nat) : Q :=
  Qsum (map (fun p : Q * (M * mat) => fst p * nth c (f (fst (snd p)) (nth i (snd (snd p)) [])) 0)%Q (combine ws (combine ms Xs))).
(* the pseudo-labels: the label of a labelled node, a prediction otherwise *)
Definition pseudo_labels (P : mat) (f : nat -> nat -> Q) : Prop :=
  length P = n /\ forall i, (i < n)%nat -> length (nth i P []) = k /\ forall c, (c < k)%nat ->
    (entry P i c == if sel train i then (if Nat.eqb c (cls i) then 1 else 0) else f i c)%Q.
(* steps rounds from the predictions H and the pseudo-labels P end at R; at first the models of the hops are new, then they
   are trained further *)
Inductive iterates (wt wp : list Q) : nat -> bool -> mat -> mat -> list M -> G -> mat -> Prop :=
| it_done (first : bool) (H P : mat) (ms : list M) (g : G) : iterates wt wp 0 first H P ms g H
| it_round (steps : nat) (first : bool) (H P : mat) (ms0 : list M) (g : G) (Xs : list mat) (starts : list M) (g1 : G) (ms : list M) (H' P' R : mat) :
    length Xs = Z.to_nat (hs_hops sp) -> (forall m, (m < length Xs)%nat -> hop_input link n k H m (nth m Xs [])) ->
    (if first then new_models Xs g starts g1 else starts = ms0 /\ g1 = g) ->
    length starts = length Xs -> length ms = length Xs ->
    (forall m X m0 m1, nth_error Xs m = Some X -> nth_error starts m = Some m0 -> nth_error ms m = Some m1 -> trained_on false X P m0 m1) ->
    length H' = n -> (forall i, (i < n)%nat -> length (nth i H' []) = k /\ forall c, (c < k)%nat -> (entry H' i c == combined soft wp ms Xs i c)%Q) ->
    pseudo_labels P' (combined (temp_soft (hs_temperature sp)) wt ms Xs) ->
    iterates wt wp steps false H' P' ms g1 R -> iterates wt wp (S steps) first H P ms0 g R.
End Iteration.

(* ---- accepted arguments *)
(* the largest label *)
Definition top_label (y : list Z) (t : Z) : Prop := In t y /\ forall v, In v y -> v <= t.
Definition weights_fit (hops : Z) (w : option (list Q)) : Prop := match w with Some l => lenZ l = hops | None => True end.
(* every class has a labelled node, labelled nodes have a class, and the other labels do not go below the classes counted from the end *)
Definition labelled_ok (train : list bool) (y : list Z) (t : Z) : Prop :=
  (exists i, sel train i = true) /\ (forall i, (i < length y)%nat -> sel train i = true -> 0 <= nth i y (-1)) /\
  (forall c, 0 <= c <= t -> exists i, (i < length y)%nat /\ sel train i = true /\ nth i y (-1) = c) /\ (forall v, In v y -> - (t + 1) <= v).
(* the weights of the hops: those given, or equal ones *)
Definition hop_weight (hops : Z) (w : option (list Q)) (l : list Q) : Prop :=
  lenZ l = hops /\ match w with Some l' => l = l' | None => forall x, In x l -> (x * inject_Z hops == 1)%Q end.
(* the validation nodes used: none when the mask is missing or selects nothing *)
Definition validation (given used : option (list bool)) : Prop :=
  match used with Some v => given = Some v /\ exists i, sel v i = true | None => forall v i, given = Some v -> sel v i = false end.
(* the same data set with other labels *)
Definition relabelled (d : node_data) (y : list Z) : node_data :=
  {| nd_X := nd_X d; nd_width := nd_width d; nd_y := y; nd_edges := nd_edges d; nd_weight := nd_weight d; nd_train := nd_train d; nd_val := nd_val d; nd_test := nd_test d; nd_unlabeled := nd_unlabeled d |}.
Definition selected (m : option (list bool)) (i : nat) : Prop := match m with Some m => sel m i = true | None => False end.
