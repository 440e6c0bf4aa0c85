(* What a transductive support vector machine is supposed to do. *)
From Coq Require Import QArith Qminmax Qabs Permutation.
From Verif Require Import Prelude QFacts SamplingSpec TsvmModel.
Local Open Scope Q_scope.
Local Open Scope list_scope.

(* ---- the classes *)
(* two classes occur in a list of labels; a negative label is no class *)
Definition two_classes (l : list Z) (neg pos : Z) : Prop :=
  (0 <= neg < pos)%Z /\ In neg l /\ In pos l /\ forall v, In v l -> (0 <= v)%Z -> v = neg \/ v = pos.
(* the positions chosen by a mask *)
Definition chosen (mask : list bool) : list nat := filter (fun i => nth i mask false) (seq 0 (List.length mask)).
Definition shown (y : list Z) (train : list bool) : list Z := map (fun i => nth i y (-1)%Z) (chosen train).
(* the classes are those of the labelled nodes if they are two, and otherwise those of the list of all labels *)
Definition classes_are (y : list Z) (train : list bool) (all : list Z) (neg pos : Z) : Prop :=
  two_classes (shown y train) neg pos \/ ((forall a b, ~ two_classes (shown y train) a b) /\ two_classes all neg pos).
(* -1 and 1 for the classes, 0 for anything else *)
Definition sign_of (neg pos v : Z) : Q := if (v =? neg)%Z then -(1) else if (v =? pos)%Z then 1 else 0.

(* ---- the dataset *)
(* without a mask of their own the nodes without a label are those that are not labelled *)
Definition unlabelled_mask (d : tsvm_data) (train : list bool) : list bool := match td_unlabeled d with Some u => u | None => map negb train end.
(* the labels of all nodes, from the metadata if they are there *)
Definition all_labels (d : tsvm_data) : list Z := match td_y_true d with Some t => t | None => td_y d end.
(* a dataset that can be trained on *)
Definition trainable (d : tsvm_data) (train : list bool) (neg pos : Z) : Prop :=
  List.length (td_X d) = List.length (td_y d) /\
  (forall c e, In c (td_y d) -> (0 <= e <= c)%Z -> In e (td_y d)) /\
  (forall e, In e (td_edges d) -> (0 <= fst e < lenZ (td_y d))%Z /\ (0 <= snd e < lenZ (td_y d))%Z) /\
  td_train d = Some train /\ List.length train = List.length (td_y d) /\
  (forall u, td_unlabeled d = Some u -> List.length u = List.length (td_y d)) /\ (forall m, In m (td_others d) -> List.length m = List.length (td_y d)) /\
  (exists i, nth i train false = true) /\ classes_are (td_y d) train (all_labels d) neg pos.
(* the rows of the labelled nodes with their signs, and those of the others *)
Definition labelled_rows (d : tsvm_data) (train : list bool) (neg pos : Z) : list (list Q * Q) :=
  map (fun i => (nth i (td_X d) [], sign_of neg pos (nth i (td_y d) (-1)%Z))) (chosen train).
Definition unlabelled_rows (d : tsvm_data) (train : list bool) : list (list Q) := map (fun i => nth i (td_X d) []) (chosen (unlabelled_mask d train)).

(* ---- training.  An example is a row of d features with its sign; a machine is its weights and its bias *)
Definition machine := (list Q * Q)%type.
Definition decision (d : nat) (m : machine) (x : list Q) : Q := Qsum (map (fun j => nth j (fst m) 0 * nth j x 0) (seq 0 d)) + snd m.
Definition average (l : list Q) : Q := Qsum l / inject_Z (Z.of_nat (List.length l)).
Section Training.
Variables (d : nat) (lr l2 : Q) (bs : nat).
Definition violated (m : machine) (e : list Q * Q) : bool := if Qlt_le_dec (snd e * decision d m (fst e)) 1 then true else false.
(* one step: the weights shrink and move towards the average of the violated examples (0 if there is none) *)
Definition moved (C : Q) (batch : list (list Q * Q)) (m m' : machine) : Prop :=
  let v := filter (violated m) batch in
  List.length (fst m') = d /\
  (forall j, (j < d)%nat -> nth j (fst m') 0 == (1 - lr * l2) * nth j (fst m) 0 + lr * C * average (map (fun e => snd e * nth j (fst e) 0) v)) /\
  snd m' == snd m + lr * C * average (map snd v).
(* a list cut into consecutive pieces of bs elements, the last one possibly shorter *)
Inductive cut {A} : list A -> list (list A) -> Prop :=
| cut_nil : cut [] []
| cut_last l : l <> [] -> (List.length l <= bs)%nat -> cut l [l]
| cut_more a l ps : List.length a = bs -> l <> [] -> cut l ps -> cut (a ++ l) (a :: ps).
Inductive steps (C : Q) : list (list (list Q * Q)) -> machine -> machine -> Prop :=
| steps_nil m : steps C [] m m
| steps_cons b bs' m m1 m2 : moved C b m m1 -> steps C bs' m1 m2 -> steps C (b :: bs') m m2.
(* an epoch goes once over all examples, in some order, batch by batch *)
Definition epoch (C : Q) (examples : list (list Q * Q)) (m m' : machine) : Prop :=
  exists order batches, Permutation order examples /\ cut order batches /\ steps C batches m m'.
Inductive trained (C : Q) (examples : list (list Q * Q)) : nat -> machine -> machine -> Prop :=
| trained_0 m : trained C examples 0 m m
| trained_S n m m1 m2 : epoch C examples m m1 -> trained C examples n m1 m2 -> trained C examples (S n) m m2.

(* ---- the guesses: the sign of the score; if all scores have the same sign and balance is asked for, the half with the
   smaller |score| is guessed negative and the other half positive *)
Definition same_sign (scores : list Q) : Prop := (forall s, In s scores -> 0 <= s) \/ (forall s, In s scores -> s < 0).
Definition guessed (balance : bool) (scores signs : list Q) : Prop :=
  List.length signs = List.length scores /\
  (~ (balance = true /\ same_sign scores) -> forall i, (i < List.length scores)%nat -> (0 <= nth i scores 0 -> nth i signs 0 = 1) /\ (nth i scores 0 < 0 -> nth i signs 0 = -(1))) /\
  (balance = true /\ same_sign scores ->
     (forall s, In s signs -> s = 1 \/ s = -(1)) /\
     List.length (filter (fun s => Qeq_bool s (-(1))) signs) = Nat.div (List.length scores) 2 /\
     forall i j, (i < List.length scores)%nat -> (j < List.length scores)%nat -> nth i signs 0 = -(1) -> nth j signs 0 = 1 -> Qabs (nth i scores 0) <= Qabs (nth j scores 0)).

(* ---- the rounds: the penalty C of the guesses grows tenfold up to Cmax, and the labelled examples are repeated so that
   they weigh C_l *)
Variables (epochs : nat) (balance : bool) (C_l Cmax : Q) (lab : list (list Q * Q)) (unl : list (list Q)).
Definition copies (C : Q) (r : nat) : Prop := exists q, nearest_even (C_l / C) q /\ Z.of_nat r = Z.max 1 q.
Inductive improved : nat -> Q -> machine -> machine -> Prop :=
| improved_0 C m : improved 0 C m m
| improved_S k C m m1 m2 signs r :
    guessed balance (map (decision d m) unl) signs -> copies (Qmax C (1 # 1000000)) r ->
    trained (Qmax C (1 # 1000000)) (concat (map (fun e => repeat e r) lab) ++ combine unl signs) epochs m m1 ->
    improved k (Qmin Cmax (10 * C)) m1 m2 -> improved (S k) C m m2.
(* first the labelled examples alone, then the rounds if there is anything to guess *)
Definition tsvm_run (w0 : list Q) (max_iter : nat) (m : machine) : Prop :=
  exists m0, trained C_l lab epochs (w0, 0) m0 /\
    ((unl = [] /\ m = m0) \/ (unl <> [] /\ improved max_iter (1 # 1000) m0 m)).
End Training.

(* ---- the objective a step goes down: half the squared weights times l2, and C times the average hinge loss *)
Definition hinge (d : nat) (m : machine) (e : list Q * Q) : Q := Qmax 0 (1 - snd e * decision d m (fst e)).
Definition objective (d : nat) (l2 C : Q) (examples : list (list Q * Q)) (m : machine) : Q :=
  l2 / 2 * Qsum (map (fun j => nth j (fst m) 0 * nth j (fst m) 0) (seq 0 d)) + C * average (map (hinge d m) examples).
(* (gw, gb) is a subgradient of f at m *)
Definition subgradient (d : nat) (f : machine -> Q) (m : machine) (gw : nat -> Q) (gb : Q) : Prop :=
  forall m' : machine, f m + Qsum (map (fun j => gw j * (nth j (fst m') 0 - nth j (fst m) 0)) (seq 0 d)) + gb * (snd m' - snd m) <= f m'.
