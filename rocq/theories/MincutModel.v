(* Model of src/modssc/transductive/methods/classic/graph_mincuts.py.  Weights are exact rationals, capacities integers.
   scipy.sparse.csgraph.maximum_flow is a parameter. *)
From Coq Require Import QArith Qround.
From Verif Require Import Prelude TransModel.
Local Open Scope Z_scope.
Local Open Scope list_scope.

(* a capacity matrix in coordinate form; entries at the same place add up (line 201, tocsr) *)
Record network := { net_size : nat; net_entries : list (nat * nat * Z); net_source : nat; net_sink : nat }.
Definition cap_at (es : list (nat * nat * Z)) (u v : nat) : Z :=
  sumZ (map snd (filter (fun e => Nat.eqb (fst (fst e)) u && Nat.eqb (snd (fst e)) v) es)).
Definition capacity (net : network) (u v : nat) : Z := cap_at (net_entries net) u v.

(* np.rint: to the nearest integer, ties to even *)
Definition rint (q : Q) : Z :=
  let f := Qfloor q in
  let d := (q - inject_Z f)%Q in
  if Qle_bool d (1 # 2) then (if Qeq_bool d (1 # 2) then (if Z.even f then f else f + 1) else f) else f + 1.

Section Search.
Variable residual : nat -> nat -> Z.
Variable indices : nat -> list nat.                 (* the stored columns of a row of the residual matrix *)
(* lines 66-71: the row of u *)
Fixpoint scan (u : nat) (vs : list nat) (visited : list bool) (stack : list nat) : list bool * list nat :=
  match vs with
  | [] => (visited, stack)
  | v :: vs => if (residual u v >? 0) && negb (nth v visited false) then scan u vs (update visited v (fun _ => true)) (v :: stack)
               else scan u vs visited stack
  end.
(* lines 62-73; the last element of the Python list is the head of ours *)
Fixpoint search (fuel : nat) (visited : list bool) (stack : list nat) : result (list bool) :=
  match fuel with
  | O => Err OutOfFuel
  | S fuel => match stack with
              | [] => Ok visited
              | u :: stack => let '(visited, stack) := scan u (indices u) visited stack in search fuel visited stack
              end
  end.
(* lines 51-73 _reachable_from_source_csr *)
Definition reachable (n_total source : nat) : result (list bool) :=
  search (S n_total) (update (repeat false n_total) source (fun _ => true)) [source].
End Search.

Section Mincut.
Variable maximum_flow : network -> result (nat -> nat -> Z).           (* the signed flow matrix *)
Variable stored : nat -> (nat -> nat -> Z) -> nat -> list nat.          (* the sparsity pattern of a square matrix of a given size *)
(* lines 163-166 *)
Definition edge_capacity (scale : Q) (min_capacity : Z) (w : Q) : Z := Z.max (rint (w * scale)) min_capacity.
(* lines 168-201 *)
Definition build_network (n : nat) (E : list edge) (caps : list Z) (pos neg : list nat) : network :=
  let inf_cap := sumZ caps + 1 in
  {| net_size := n + 2;
     net_entries := map (fun p : edge * Z => (Z.to_nat (e_src (fst p)), Z.to_nat (e_dst (fst p)), snd p)) (combine E caps)
                    ++ map (fun p => (n, p, inf_cap)) pos ++ map (fun v => (v, S n, inf_cap)) neg;
     net_source := n; net_sink := S n |}.
(* lines 76-226 graph_mincuts: the two columns of F *)
Definition graph_mincuts (n : Z) (edge_index : list (Z * Z)) (weight : option (list Q)) (y : list Z) (mask : list bool) (scale : Q) (min_capacity : Z) : result mat :=
  do E <- validate_graph n edge_index weight;
  if negb (lenZ y =? n) then Err ValueError
  else if negb (lenZ mask =? n) then Err ValueError
  else
    let labelled := flatnonzero mask in
    match labelled with
    | [] => Err ValueError
    | _ =>
      match uniqueZ (map (fun i => nth i y 0) labelled) with
      | [neg_class; pos_class] =>
          let pos := filter (fun i => nth i y 0 =? pos_class) labelled in
          let neg := filter (fun i => nth i y 0 =? neg_class) labelled in
          if Qle_bool scale 0 then Err ValueError
          else
            let caps := map (fun e => edge_capacity scale min_capacity (e_w e)) E in
            let nn := Z.to_nat n in
            let net := build_network nn E caps pos neg in
            match maximum_flow net with
            | Err _ => Err RuntimeError
            | Ok flow =>
                let residual u v := capacity net u v - flow u v in
                do visited <- reachable residual (stored (nn + 2)%nat residual) (nn + 2) nn;
                let F := map (fun b : bool => if b then [0; 1]%Q else [1; 0]%Q) (firstn nn visited) in
                if forallb (fun i => Qeq_bool (entry F i 1) 1) pos && forallb (fun i => Qeq_bool (entry F i 0) 1) neg then Ok F
                else Err RuntimeError
            end
      | _ => Err ValueError
      end
    end.
End Mincut.
