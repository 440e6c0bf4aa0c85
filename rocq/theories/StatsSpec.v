(* Specification vocabulary of the statistics of a sample (C166). *)
From Coq Require Import String.
From Verif Require Import Prelude SamplingSpec SampleServiceSpec StatsModel.
Local Open Scope Z_scope.
Local Open Scope list_scope.
Local Notation length := List.length.

(* the label of sample i *)
Definition label (y : list Z) (i : Z) : Z := nth (Z.to_nat i) y 0.
(* d tells how many indices there are, and of each class that occurs, once and in ascending order, how many *)
Record describes (y idx : list Z) (d : dist) : Prop := {
  ds_total : d_n d = Z.of_nat (length idx);
  ds_class : forall c k, In (c, k) (d_classes d) <-> 0 < k /\ k = class_size (label y) c idx;
  ds_order : Sorted Z.lt (map fst (d_classes d));
  ds_sum : fold_right Z.add 0 (map snd (d_classes d)) = d_n d
}.
(* k is the number of nodes of a mask *)
Definition counts_nodes (m : list bool) (k : Z) : Prop :=
  exists l, NoDup l /\ (forall i, In i l <-> 0 <= i /\ on m i) /\ k = Z.of_nat (length l).
