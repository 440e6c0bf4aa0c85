(* Vocabulary for C161: the graph.dgi step. *)
From Coq Require Import QArith Qminmax.
From Verif Require Import Prelude QFacts TransModel TransSpec GnnModel GnnSpec DgiModel.
Local Open Scope Z_scope.
Local Open Scope list_scope.
Local Notation length := List.length.

(* the feature table of an array: one dimension is one column *)
Definition table_of (x : features) (d : nat) (X : mat) : Prop := (exists l, x = X1 l /\ d = 1%nat /\ X = map (fun v => [v]) l) \/ x = X2 d X.
(* features.X is used when it is there, raw.X otherwise *)
Definition input_of (s : store) (x : features) : Prop := s_features s = Some x \/ (s_features s = None /\ s_raw s = Some x).
(* an array that lists the edges: two rows of equal length, or rows of two; two by two is two rows *)
Definition lists (e : edge_array) (pairs : list (Z * Z)) : Prop :=
  (exists src dst k, e = E2 [src; dst] k /\ length src = k /\ length dst = k /\ pairs = combine src dst) \/
  (exists rows, e = E2 rows 2 /\ length rows <> 2%nat /\ (forall r, In r rows -> length r = 2%nat) /\ rows = map (fun p => [fst p; snd p]) pairs).
(* the rows of an array have the width it says *)
Definition well_formed (e : edge_array) : Prop := match e with E2 rows k => forall r, In r rows -> length r = k | EOther => True end.
Definition inside (n : nat) (pairs : list (Z * Z)) : Prop := forall u v, In (u, v) pairs -> 0 <= u < Z.of_nat n /\ 0 <= v < Z.of_nat n.
Definition good_config (c : config) : Prop := 0 < c_emb c /\ 0 < c_hid c /\ 0 < c_epochs c /\ (0 < c_lr c)%Q /\ (0 <= c_dropout c)%Q /\ (c_dropout c < 1)%Q.
(* the store holds a graph with these features, edges and weights *)
Definition holds (s : store) (d : nat) (X : mat) (E : list edge) : Prop :=
  exists x e pairs w, input_of s x /\ table_of x d X /\ s_edges s = Some e /\ lists e pairs /\ inside (length X) pairs /\ length w = length pairs /\
    (s_weight s = Some w \/ (s_weight s = None /\ forall q, In q w -> q = 1%Q)) /\ E = combine pairs w.
(* the random choices of some epochs, one after the other *)
Inductive chosen {N G} (choose : G -> N * G) : nat -> G -> list N -> G -> Prop :=
| chosen_none g : chosen choose 0 g [] g
| chosen_more k g x g1 l g2 : choose g = (x, g1) -> chosen choose k g1 l g2 -> chosen choose (S k) g (x :: l) g2.
