(* Vocabulary for the statements about edge lists, independent of how the code computes them. *)
From Coq Require Import QArith Qminmax.
From Verif Require Import Prelude GraphOpsModel.
Local Open Scope Z_scope.
Local Open Scope list_scope.

Definition nodes_in {W} (n : Z) (l : list (edge * W)) : Prop :=
  forall i j w, In ((i, j), w) l -> 0 <= i < n /\ 0 <= j < n.

Section Weights.
Context {W : Type}.
Variable maxW avgW : W -> W -> W.

(* the weights of all copies of the directed edge i -> j, in order *)
Definition copies (l : list (edge * W)) (i j : Z) : list W :=
  map snd (filter (fun p => (fst (fst p) =? i) && (snd (fst p) =? j)) l).

(* the largest of them *)
Definition strongest (l : list (edge * W)) (i j : Z) : option W :=
  match copies l i j with [] => None | x :: r => Some (fold_left maxW r x) end.

(* the weight a symmetrised graph should give to i - j; None when there is no such edge *)
Definition undirected_weight (mutual : bool) (l : list (edge * W)) (i j : Z) : option W :=
  if i =? j then strongest l i i
  else match strongest l (Z.min i j) (Z.max i j), strongest l (Z.max i j) (Z.min i j) with
       | Some x, Some y => Some (avgW x y)
       | Some x, None => if mutual then None else Some x
       | None, Some y => if mutual then None else Some y
       | None, None => None
       end.
End Weights.

Local Open Scope Q_scope.
Definition sumQ (l : list Q) : Q := fold_right Qplus 0 l.
(* the weights of the edges leaving node i, in a list of weights aligned with the edges *)
Definition outgoing (edges : list edge) (w : list Q) (i : Z) : list Q :=
  map snd (filter (fun p => (fst (fst p) =? i)%Z) (combine edges w)).

Local Open Scope Z_scope.
(* node i carries the flag *)
Definition marked (m : list bool) (i : Z) : Prop := 0 <= i /\ nth (Z.to_nat i) m false = true.
Definition all_below (n : Z) (idx : list Z) : Prop := forall i, In i idx -> 0 <= i < n.
