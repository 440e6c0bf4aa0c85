(* Vocabulary for the supervised classifiers. *)
From Coq Require Import List ZArith QArith String.
From Verif Require Import EnsembleSpec.
Import ListNotations.
Open Scope Z_scope.

(* N holds k of the training positions (all if there are fewer), none of the others scoring more *)
Definition best_scored {X} (score : X -> X -> Q) (Xt : list X) (d q : X) (k : nat) (N : list nat) : Prop :=
  NoDup N /\ List.length N = Nat.min k (List.length Xt) /\ (forall i, In i N -> (i < List.length Xt)%nat) /\
  forall i j, In i N -> (j < List.length Xt)%nat -> ~ In j N -> (score q (nth j Xt d) <= score q (nth i Xt d))%Q.

(* the weight of the members of N with label c *)
Definition weight_of_label (y : list Z) (w : nat -> Q) (N : list nat) (c : Z) : Q :=
  total (map w (filter (fun i => if Z.eq_dec (nth i y 0) c then true else false) N)).

(* the sorted distinct values of y *)
Definition labels_of (y cs : list Z) : Prop := Sorted.StronglySorted Z.lt cs /\ forall c, In c cs <-> In c y.

(* b is the first element of l with property P *)
Definition first_such {A} (P : A -> Prop) (l : list A) (b : A) : Prop :=
  exists l1 l2, l = l1 ++ b :: l2 /\ P b /\ forall a, In a l1 -> ~ P a.

(* the constructor sees the caller's parameters, and the runtime's seed and n_jobs only where the caller gave none *)
Definition completes (params ps : string -> option Z) (seed n_jobs : option Z) : Prop :=
  forall k, ps k = match params k with
                   | Some v => Some v
                   | None => if string_dec k "seed" then seed else if string_dec k "n_jobs" then n_jobs else None
                   end.
