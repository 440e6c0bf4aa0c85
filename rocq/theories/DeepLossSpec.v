(* The vocabulary in which the deep methods' objectives are stated. *)
From Coq Require Import QArith.
From Verif Require Import Prelude QFacts.
Local Open Scope Q_scope.

(* v is the average of the values, 0 if there is none *)
Definition average (vals : list Q) (v : Q) : Prop := v * inject_Z (lenZ vals) == Qsum vals /\ (vals = [] -> v == 0).

(* some class has at least probability t *)
Definition confident (t : Q) (p : list Q) : bool := existsb (fun x => Qle_bool t x) p.

(* c is a class of the row p and none is more probable *)
Definition most_likely (p : list Q) (c : Z) : Prop :=
  (0 <= c < lenZ p)%Z /\ forall j, (j < length p)%nat -> nth j p 0 <= nth (Z.to_nat c) p 0.

(* contracts *)
Definition argmax_ok (argmax : list Q -> Z) : Prop := forall p, p <> [] -> most_likely p (argmax p).
(* x ** y with y > 0, for x >= 0 *)
Definition pow_ok (pow : Q -> Q) : Prop :=
  (forall x y, 0 <= x -> 0 <= y -> (x < y -> pow x < pow y) /\ (x == y -> pow x == pow y)) /\ pow 0 == 0.
Definition softmax_ok (softmax : list Q -> list Q) : Prop :=
  forall z, length (softmax z) = length z /\ (forall x, In x (softmax z) -> 0 <= x) /\ (z <> [] -> Qsum (softmax z) == 1).
Definition exp_ok (exp : Q -> Q) : Prop :=
  (forall x, 0 < exp x) /\ (forall x y, x <= y -> exp x <= exp y) /\ exp 0 == 1.

Definition distribution (p : list Q) : Prop := (forall x, In x p -> 0 <= x) /\ Qsum p == 1.

(* the rows are tables of n rows with w columns *)
Definition table (n w : nat) (l : list (list Q)) : Prop := length l = n /\ forall r, In r l -> length r = w.

(* the rows among 0..n-1 that satisfy a test *)
Definition chosen (n : nat) (test : nat -> bool) : list nat := filter test (seq 0 n).

(* t is p raised to a power by [pow] and divided by the sum of the powers; by something else only when the sum is under 1e-12 *)
Definition sharpened (pow : Q -> Q) (p t : list Q) : Prop :=
  length t = length p /\
  exists d, 0 < d /\ ((1 # 1000000000000) <= Qsum (map pow p) -> d == Qsum (map pow p)) /\
            forall c, (c < length p)%nat -> nth c t 0 * d == pow (nth c p 0).

(* sum over the classes c of - t(c) * logp(c) *)
Definition soft_cross_entropy (w : nat) (t logp : list Q) : Q := - Qsum (map (fun c => nth c t 0 * nth c logp 0) (seq 0 w)).
(* sum over the classes c of p(c) * (log(p(c) + 1e-12) - logp(c)) *)
Definition divergence (w : nat) (log : Q -> Q) (p logp : list Q) : Q :=
  Qsum (map (fun c => nth c p 0 * (log (nth c p 0 + (1 # 1000000000000)) - nth c logp 0)) (seq 0 w)).
