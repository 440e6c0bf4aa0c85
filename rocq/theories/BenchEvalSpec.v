(* Vocabulary for the benchmark runner's data handling: which rows, which edges, which nodes. *)
From Coq Require Import QArith String.
From Verif Require Import Prelude SamplingModel SampleServiceModel SampleServiceSpec MetricsModel MetricsSpec BenchEvalModel.
Local Open Scope string_scope.
Local Open Scope Z_scope.
Local Open Scope list_scope.

(* out holds, in this order, the rows with the given numbers *)
Definition rows_at {A} (rows : list A) (idx : list Z) (out : list A) : Prop :=
  Forall2 (fun i a => 0 <= i /\ nth_error rows (Z.to_nat i) = Some a) idx out.

(* e' is the edge e after the nodes have been renumbered by their position in idx *)
Definition renumbered (idx : list Z) (e e' : Z * Z) : Prop :=
  (0 <= fst e' /\ nth_error idx (Z.to_nat (fst e')) = Some (fst e)) /\
  (0 <= snd e' /\ nth_error idx (Z.to_nat (snd e')) = Some (snd e)).
(* the edges between the chosen nodes, in order, renumbered *)
Definition induced (edges : list (Z * Z)) (idx : list Z) (out : list (Z * Z)) : Prop :=
  Forall2 (renumbered idx) (filter (fun e => memZ (fst e) idx && memZ (snd e) idx) edges) out.
(* what torch_geometric's subgraph promises for distinct nodes *)
Definition subgraph_ok (subgraph : list (Z * Z) -> list Z -> option Z -> result (list (Z * Z))) : Prop :=
  forall edges idx n out, NoDup idx -> subgraph edges idx n = Ok out -> induced edges idx out.

(* the part of the data set that the numbers of a split refer to *)
Definition part_of {A} (pre : prepared A) (r : inductive_result) (split : string) (p : part A) : Prop :=
  (ref_of (r_refs r) split = "train" /\ p = pr_train pre) \/
  (ref_of (r_refs r) split <> "train" /\ pr_test pre = Some p).
(* the labels of a part: those made by preprocessing if there are any *)
Definition labels_of {A} (p : part A) : list Z := match pt_labels p with Some y => y | None => pt_y p end.

(* a data set whose parts have one label per row *)
Definition aligned {A} (p : part A) : Prop := length (pt_X p) = length (pt_y p) /\ length (labels_of p) = length (pt_X p).

(* the node that stands for row i of a split when test rows are numbered after the n_train training rows *)
Definition node_of (n_train : Z) (r : inductive_result) (split : string) (i : Z) : Z :=
  if String.eqb (ref_of (r_refs r) split) "train" then i else n_train + i.

(* v is the list of l's entries at the marked positions, in order *)
Definition marked_positions (mask : list bool) (pos : list nat) : Prop :=
  (forall i, In i pos <-> nth_error mask i = Some true) /\
  forall a b i j, (a < b)%nat -> nth_error pos a = Some i -> nth_error pos b = Some j -> (i < j)%nat.

(* the class numbers read from predictions: labels as they are, score rows by their first largest column *)
Definition predicted (o : outputs) (l : list Z) : Prop :=
  match o with
  | Labels q => l = q
  | Scores rows => Forall2 (fun row i => exists j, i = Z.of_nat j /\ first_max row j) rows l
  end.
(* vals are the entries of l at these positions *)
Definition entries_at {A} (l : list A) (pos : list nat) (vals : list A) : Prop :=
  Forall2 (fun i v => nth_error l i = Some v) pos vals.
