(* Model of the graph coarsening of H-GCN: src/modssc/transductive/methods/gnn/h_gcn.py 25-126 and
   288-347.  Numbers are rationals; 1 / sqrt of a product of node weights is part of an arbitrary score
   function.  Endpoints are node numbers (validated before). *)
From Coq Require Import QArith.
From Verif Require Import Prelude QFacts TransModel.
Local Open Scope nat_scope.
Local Open Scope list_scope.

(* src/modssc/transductive/methods/gnn/h_gcn.py 25-46: the dense adjacency; np.maximum of the matrix
   and its transpose *)
Definition dense_entry (edges : list (nat * nat * Q)) (i j : nat) : Q :=
  fold_left (fun acc (e : nat * nat * Q) =>
    let '(s, d, w) := e in
    if Nat.eqb s d then acc else if Nat.eqb s i && Nat.eqb d j then (acc + w)%Q else acc) edges 0%Q.
Definition qmax (a b : Q) : Q := if Qle_bool a b then b else a.
Definition dense_adjacency (edges : list (nat * nat * Q)) (n : nat) (symmetrize : bool) : mat :=
  tabulate n n (fun i j =>
    if Nat.eqb i j then 0%Q
    else if symmetrize then qmax (dense_entry edges i j) (dense_entry edges j i) else dense_entry edges i j).

Section Coarsen.
(* adj[v, u] / sqrt(weight[v] * weight[u]) *)
Variable score : Q -> Z -> Z -> Q.

(* np.flatnonzero(adj[i] != 0) without i: src/modssc/transductive/methods/gnn/h_gcn.py 65-68 *)
Definition neighbors (adj : mat) (i : nat) : list nat :=
  filter (fun j => negb (Qeq_bool (entry adj i j) 0) && negb (Nat.eqb j i)) (seq 0 (length adj)).

Fixpoint list_eqb (a b : list nat) : bool :=
  match a, b with
  | [], [] => true
  | x :: a, y :: b => Nat.eqb x y && list_eqb a b
  | _, _ => false
  end.
(* by_neigh.setdefault(neigh, []).append(i): src/modssc/transductive/methods/gnn/h_gcn.py 73-75 *)
Fixpoint bucket (key : list nat) (i : nat) (d : list (list nat * list nat)) : list (list nat * list nat) :=
  match d with
  | [] => [(key, [i])]
  | (k, l) :: r => if list_eqb k key then (k, l ++ [i]) :: r else (k, l) :: bucket key i r
  end.
Definition by_neigh (adj : mat) : list (list nat * list nat) :=
  fold_left (fun d i => bucket (neighbors adj i) i d) (seq 0 (length adj)) [].

Definition mem (x : nat) (l : list nat) : bool := existsb (Nat.eqb x) l.
(* the state of the loop: the marked nodes and the groups so far *)
Definition state := (list nat * list (list nat))%type.

(* the pairs of one bucket: src/modssc/transductive/methods/gnn/h_gcn.py 76-87; the nodes of a bucket
   are in increasing order already, so sorted does nothing *)
Fixpoint pair_up (nodes : list nat) (st : state) : state :=
  match nodes with
  | a :: b :: rest =>
      let (marked, groups) := st in
      pair_up rest (if mem a marked || mem b marked then st else (b :: a :: marked, groups ++ [[a; b]]))
  | _ => st
  end.
Definition equivalence_grouping (adj : mat) : state :=
  fold_left (fun st (kl : list nat * list nat) => pair_up (snd kl) st) (by_neigh adj) ([], []).

(* np.argsort(degrees, kind="stable") *)
Fixpoint insert_by (key : nat -> nat) (x : nat) (l : list nat) : list nat :=
  match l with
  | [] => [x]
  | y :: r => if Nat.leb (key x) (key y) then x :: l else y :: insert_by key x r
  end.
Definition argsort (key : nat -> nat) (n : nat) : list nat := fold_right (insert_by key) [] (seq 0 n).

(* the choice of a partner: src/modssc/transductive/methods/gnn/h_gcn.py 95-103 *)
Definition best_step (sc : nat -> Q) (marked : list nat) (best : option (nat * Q)) (u : nat) : option (nat * Q) :=
  if mem u marked then best
  else match best with
       | None => Some (u, sc u)
       | Some (b, bs) =>
           if negb (Qle_bool (sc u) bs) || (Qeq_bool (sc u) bs && Nat.ltb u b) then Some (u, sc u) else best
       end.
Definition wat (weights : list Z) (v : nat) : Z := nth v weights 0%Z.
Definition score_of (adj : mat) (weights : list Z) (v u : nat) : Q := score (entry adj v u) (wat weights v) (wat weights u).
(* src/modssc/transductive/methods/gnn/h_gcn.py 92-110 *)
Definition similarity_step (adj : mat) (weights : list Z) (st : state) (v : nat) : state :=
  let (marked, groups) := st in
  if mem v marked then st
  else match fold_left (best_step (score_of adj weights v) marked) (neighbors adj v) None with
       | None => (v :: marked, groups ++ [[v]])
       | Some (b, _) => (b :: v :: marked, groups ++ [[v; b]])
       end.
(* src/modssc/transductive/methods/gnn/h_gcn.py 112-116 *)
Definition leftover_step (st : state) (v : nat) : state :=
  let (marked, groups) := st in if mem v marked then st else (v :: marked, groups ++ [[v]]).
Definition coarse_groups (adj : mat) (weights : list Z) : list (list nat) :=
  let n := length adj in
  let st := fold_left (similarity_step adj weights) (argsort (fun i => length (neighbors adj i)) n) (equivalence_grouping adj) in
  snd (fold_left leftover_step (seq 0 n) st).

(* M[group, idx] = 1: src/modssc/transductive/methods/gnn/h_gcn.py 118-121 *)
Definition group_matrix (n : nat) (groups : list (list nat)) : mat :=
  tabulate n (length groups) (fun i g => if mem i (nth g groups []) then 1%Q else 0%Q).
(* src/modssc/transductive/methods/gnn/h_gcn.py 58-126 *)
Definition coarsen (adj : mat) (weights : list Z) : mat * mat * list Z :=
  let n := length adj in
  let groups := coarse_groups adj weights in
  let M := group_matrix n groups in
  let k := length groups in
  (M,
   tabulate k k (fun g h => Qsum (map (fun i => Qsum (map (fun j => entry M i g * entry adj i j * entry M j h)%Q (seq 0 n))) (seq 0 n))),
   map (fun g => sumZ (map (wat weights) g)) groups).

(* the levels: src/modssc/transductive/methods/gnn/h_gcn.py 334-347; the maximum of an empty
   array, an error, does not arise: there is at least one node *)
Fixpoint levels (num : nat) (adj : mat) (weights : list Z) : list (mat * list Z) * list mat :=
  match num with
  | O => ([(adj, weights)], [])
  | S k =>
      let '(M, adj', weights') := coarsen adj weights in
      let (ls, Ms) := levels k adj' weights' in
      ((adj, weights) :: ls, M :: Ms)
  end.
Definition max_weight (ls : list (mat * list Z)) : Z :=
  Z.max 1 (fold_right Z.max 0%Z (map (fun l => fold_right Z.max 0%Z (snd l)) ls)).
(* src/modssc/transductive/methods/gnn/h_gcn.py 288-293, 326-347: the levels of a fit *)
Definition fit_levels (num_layers channels embed : Z) (edges : list (nat * nat * Q)) (n : nat) (symmetrize : bool)
    : result (list (mat * list Z) * list mat * Z) :=
  if (num_layers <? 3)%Z || (num_layers mod 2 =? 0)%Z then Err ValueError
  else if (channels <? 1)%Z then Err ValueError
  else if (embed <? 1)%Z then Err ValueError
  else
    let '(ls, Ms) := levels (Z.to_nat ((num_layers - 1) / 2)) (dense_adjacency edges n symmetrize) (repeat 1%Z n) in
    Ok (ls, Ms, max_weight ls).
End Coarsen.

(* pooling and unpooling of features: group_mats[i].T @ G and group_mats[i] @ G,
   src/modssc/transductive/methods/gnn/h_gcn.py 223, 233 *)
Definition pool (M G : mat) (n k d : nat) : mat :=
  tabulate k d (fun g c => Qsum (map (fun i => entry M i g * entry G i c)%Q (seq 0 n))).
Definition unpool (M G : mat) (n k d : nat) : mat :=
  tabulate n d (fun i c => Qsum (map (fun g => entry M i g * entry G g c)%Q (seq 0 k))).

Section Predict.
Variables features out : Type.
(* the trained network as a function of the levels and the features: _HGCNNet.forward in
   src/modssc/transductive/methods/gnn/h_gcn.py 204-238 *)
Variable net : list (mat * list Z) * list mat -> features -> out.
(* predict_proba: src/modssc/transductive/methods/gnn/h_gcn.py 396-419; the levels are those of the fit *)
Definition predict (fitted : list (mat * list Z) * list mat) (fitted_n : nat)
    (x : features) (edges : list (nat * nat * Q)) (n : nat) : result out :=
  if Nat.eqb n fitted_n then Ok (net fitted x) else Err ValueError.
End Predict.
