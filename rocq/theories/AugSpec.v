(* Vocabulary for data augmentation, independent of the operations. *)
From Coq Require Import List ZArith QArith.
From Verif Require Import AugModel.
Import ListNotations.
Open Scope Z_scope.

(* what numpy documents about the draws *)
Definition draws_ok (G : generator) : Prop :=
  (forall s, (0 <= fst (g_unit G s))%Q /\ (fst (g_unit G s) < 1)%Q) /\
  (forall n s, length (fst (g_units G n s)) = n /\ forall u, In u (fst (g_units G n s)) -> (0 <= u)%Q /\ (u < 1)%Q) /\
  (forall lo hi s, lo < hi -> lo <= fst (g_int G lo hi s) < hi) /\
  (forall n s, 0 < n -> 0 <= fst (fst (g_int2 G n s)) < n /\ 0 <= snd (fst (g_int2 G n s)) < n) /\
  (forall v s, (2 <= length v)%nat -> In (fst (fst (g_two G v s))) v /\ In (snd (fst (g_two G v s))) v) /\
  (forall n s, length (fst (g_normals G n s)) = n).

(* the words of a text: runs of non-space characters separated by spaces *)
Inductive words (is_space : Z -> bool) : str -> list str -> Prop :=
| words_none sp : (forall c, In c sp -> is_space c = true) -> words is_space sp []
| words_cons sp w rest ws :
    (forall c, In c sp -> is_space c = true) ->
    w <> [] -> (forall c, In c w -> is_space c = false) ->
    (rest = [] \/ exists c r, rest = c :: r /\ is_space c = true) ->
    words is_space rest ws ->
    words is_space (sp ++ w ++ rest) (w :: ws).

Inductive subsequence {A} : list A -> list A -> Prop :=
| sub_nil : subsequence [] []
| sub_skip a l1 l2 : subsequence l1 l2 -> subsequence l1 (a :: l2)
| sub_take a l1 l2 : subsequence l1 l2 -> subsequence (a :: l1) (a :: l2).

(* the items whose draw reaches p *)
Definition surviving {A} (p : Q) (us : list Q) (l : list A) : list A :=
  map snd (filter (fun ux => if Qlt_le_dec (fst ux) p then false else true) (combine us l)).

Definition same_shape (t t' : tensor) : Prop :=
  match t, t' with
  | T1 a, T1 b => length a = length b
  | T2 a, T2 b => map (@length Q) a = map (@length Q) b
  | T3 a, T3 b => map (map (@length Q)) a = map (map (@length Q)) b
  | _, _ => False
  end.

(* the edges written in an array of shape (2, E), or (E, 2) with E other than 2 *)
Definition edges_written (e : list (list Z)) (es : list (Z * Z)) : Prop :=
  e = [map fst es; map snd es] \/ (e <> [] /\ length e <> 2%nat /\ e = map (fun ab => [fst ab; snd ab]) es).

(* the lines along the last axis *)
Definition rows_of (t : tensor) : list (list Q) := match t with T1 l => [l] | T2 l => l | T3 l => concat l end.

(* position i of l is found at (i + k) mod n in l' *)
Definition rotated {A} (k : Z) (l l' : list A) : Prop :=
  length l' = length l /\
  forall i, (i < length l)%nat -> nth_error l' (Z.to_nat ((Z.of_nat i + k) mod Z.of_nat (length l))) = nth_error l i.

(* images *)
Definition grid {A} (H W : nat) (g : list (list A)) : Prop := length g = H /\ forall r, In r g -> length r = W.
Definition image (lay : layout) (t : tensor) (H W C : nat) : Prop :=
  (0 < H)%nat /\ (0 < W)%nat /\ (0 < C)%nat /\
  match lay, t with
  | HW, T2 l => grid H W l /\ C = 1%nat
  | HWC, T3 l => grid H W l /\ forall r px, In r l -> In px r -> length px = C
  | CHW, T3 l => length l = C /\ forall ch, In ch l -> grid H W ch
  | _, _ => False
  end.
(* the channel values at row r, column c *)
Definition pixel (lay : layout) (t : tensor) (r c : nat) : list Q :=
  match lay, t with
  | HW, T2 l => [nth c (nth r l []) 0%Q]
  | HWC, T3 l => nth c (nth r l []) []
  | CHW, T3 l => map (fun ch => nth c (nth r ch []) 0%Q) l
  | _, _ => []
  end.
(* j is where position i of the line lands when it is folded back at both ends of 0 .. n-1 *)
Definition folds_to (n i j : Z) : Prop :=
  0 <= j < n /\ (n = 1 \/ exists k, i = 2 * k * (n - 1) + j \/ i = 2 * k * (n - 1) - j).

Definition in_square (len : Z) (hole : Z * Z) (r c : nat) : bool :=
  (fst hole <=? Z.of_nat r) && (Z.of_nat r <? fst hole + len) && (snd hole <=? Z.of_nat c) && (Z.of_nat c <? snd hole + len).
