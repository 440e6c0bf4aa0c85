(* The textbook definitions of the metrics, on the list of (true label, predicted label) pairs. *)
From Coq Require Import QArith String.
From Verif Require Import Prelude QFacts.
Local Open Scope Z_scope.
Local Open Scope list_scope.

Definition pairs := list (Z * Z).
(* how many samples satisfy a test *)
Definition how_many (f : Z * Z -> bool) (s : pairs) : Z := lenZ (filter f s).
Definition hits (c : Z) (s : pairs) : Z := how_many (fun p => (fst p =? c) && (snd p =? c)) s.
Definition truly (c : Z) (s : pairs) : Z := how_many (fun p => fst p =? c) s.
Definition predicted (c : Z) (s : pairs) : Z := how_many (fun p => snd p =? c) s.
(* the classes that occur among the true labels, each once *)
Definition classes_of (s : pairs) (cs : list Z) : Prop := NoDup cs /\ forall c, In c cs <-> exists p, In (c, p) s.
Definition recall (s : pairs) (c : Z) : Q := ratio (hits c s) (truly c s).
Definition f1 (s : pairs) (c : Z) : Q := ratio (2 * hits c s) (truly c s + predicted c s).
Definition all_right (s : pairs) : Prop := forall a b, In (a, b) s -> a = b.
Definition same_score (a b : option Q) : Prop :=
  match a, b with Some x, Some y => (x == y)%Q | None, None => True | _, _ => False end.
(* the position of the first largest entry *)
Definition first_max (row : list Q) (i : nat) : Prop :=
  (i < List.length row)%nat /\
  (forall j, (j < List.length row)%nat -> (nth j row 0 <= nth i row 0)%Q) /\
  (forall j, (j < i)%nat -> (nth j row 0 < nth i row 0)%Q).
