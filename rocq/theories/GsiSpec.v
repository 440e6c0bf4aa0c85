(* Vocabulary for C158: the GraphSAGE classifier. *)
From Coq Require Import String QArith.
From Verif Require Import Prelude GsiModel.
Local Open Scope string_scope.
Local Open Scope Z_scope.
Local Open Scope list_scope.
Local Notation length := List.length.

(* a walk of k edges from u to v *)
Inductive walk (e : list (Z * Z)) (v : Z) : nat -> Z -> Prop :=
| walk_here : walk e v 0 v
| walk_step k u x : In (u, x) e -> walk e v k x -> walk e v (S k) u.
(* one layer for each pair of consecutive sizes, with as many outputs as the second says *)
Inductive fits : list Z -> list layer -> Prop :=
| fits_end k : fits [k] []
| fits_more a b r ly ls : length (l_nb ly) = Z.to_nat b -> length (l_bias ly) = Z.to_nat b -> length (l_self ly) = Z.to_nat b -> fits (b :: r) ls -> fits (a :: b :: r) (ly :: ls).
(* the hidden widths asked for *)
Definition or_else (d : Z) (o : option Z) : Z := match o with Some a => a | None => d end.
Definition known (lower : string -> string) (name : string) : Prop := In (lower name) ["relu"; "gelu"; "tanh"].
(* a graph with features in two dimensions and edges in two rows *)
Definition graph_input (X : input) (w : nat) (rows : list (list Q)) (e : list (Z * Z)) : Prop :=
  exists src dst ew, X = IDict (Some (F2 w rows)) (Some (E2 src dst)) ew /\ e = combine src dst.
Definition ends_in (n : nat) (e : list (Z * Z)) : Prop := forall u v, In (u, v) e -> 0 <= u < Z.of_nat n /\ 0 <= v < Z.of_nat n.
(* k is one more than the largest label *)
Definition one_above (k : Z) (l : list Z) : Prop := In (k - 1) l /\ forall x, In x l -> x < k.
Definition no_negative (c : params) : Prop := match c_sizes c with Some (a :: r) => Forall (fun z => 0 <= z) (a :: r) | _ => 0 <= c_hidden c \/ c_layers c <= 1 end.
