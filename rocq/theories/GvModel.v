(* Model of the graph views: src/modssc/graph/featurization/ops/adjacency.py, views/diffusion.py and views/struct.py.
   Exact rationals replace floating point. *)
From Coq Require Import QArith Qminmax.
From Verif Require Import Prelude QFacts TransModel.
Local Open Scope Q_scope.
Local Open Scope list_scope.

(* ---- views/diffusion.py, on edges inside the graph (built graphs are checked before) *)
(* views/diffusion.py lines 45-60: the total weight leaving a node, and the share of an edge; without weights every edge weighs 1 *)
Definition leaving (E : list edge) (i : Z) : Q := Qsum (map e_w (filter (fun e => (e_src e =? i)%Z) E)).
Definition w_norm (tiny : Q) (E : list edge) : list edge := map (fun e => (e_src e, e_dst e, e_w e / Qmax (leaving E (e_src e)) tiny)) E.
(* ops/adjacency.py lines 50-57, csr: coo_matrix(...).tocsr() adds parallel edges up *)
Definition csr_entry (E : list edge) (i j : nat) : Q :=
  Qsum (map e_w (filter (fun e => (e_src e =? Z.of_nat i)%Z && (e_dst e =? Z.of_nat j)%Z) E)).
(* ops/adjacency.py lines 40-48, dense: A[src, dst] = data keeps the last of parallel edges *)
Definition dense_entry (E : list edge) (i j : nat) : Q :=
  fold_left (fun a e => if (e_src e =? Z.of_nat i)%Z && (e_dst e =? Z.of_nat j)%Z then e_w e else a) E 0.
(* views/diffusion.py lines 77-84, one step: H = A @ H; H *= 1 - a; H += X0 * a *)
Definition diffuse (A : nat -> nat -> Q) (n d : nat) (a : Q) (X H : mat) : mat :=
  tabulate n d (fun i c => Qsum (map (fun j => A i j * entry H j c) (seq 0 n)) * (1 - a) + entry X i c * a).
(* views/diffusion.py lines 25-86 diffusion_view; d is the number of columns of X, [scipy] says whether scipy is installed *)
Definition diffusion_view (tiny : Q) (scipy : bool) (n : Z) (d : nat) (E : list edge) (steps : Z) (alpha : Q) (X : mat) : result mat :=
  if negb (lenZ X =? n)%Z then Err GraphValidationError
  else
    let W := w_norm tiny E in
    let nn := Z.to_nat n in
    if scipy then Ok (Nat.iter (Z.to_nat steps) (diffuse (csr_entry W) nn d alpha X) X)
    else if (n >? 4096)%Z then Err OptionalDependencyError
    else Ok (Nat.iter (Z.to_nat steps) (diffuse (dense_entry W) nn d alpha X) X).

(* ---- views/struct.py *)
Inductive struct_method := DeepWalk | Node2Vec.
Record struct_params := { sp_method : struct_method; sp_dim : Z; sp_walk_length : Z; sp_num_walks : Z; sp_window : Z; sp_p : Q; sp_q : Q; sp_max_dense : Z }.
(* views/struct.py lines 29-44 _build_neighbors: the targets of the edges leaving a node, in the order of the edges *)
Definition nbrs (n : Z) (ei : list (Z * Z)) (i : nat) : list nat :=
  map (fun e => Z.to_nat (snd e)) (filter (fun e : Z * Z => (fst e =? Z.of_nat i)%Z && (0 <=? fst e)%Z && (fst e <? n)%Z && (0 <=? snd e)%Z && (snd e <? n)%Z) ei).

Section Walks.
Variable rng : Type.
Variable fresh : Z -> rng.                                    (* np.random.default_rng *)
Variable choice : rng -> list nat -> nat * rng.               (* rng.choice(nbrs) *)
Variable choice_p : rng -> list nat -> list Q -> nat * rng.   (* rng.choice(nbrs, p=probs) *)
Variable mix : Z -> Z -> Z.                                   (* utils/seed.py mix_seed32 *)
Variable sp : struct_params.
Variable neigh : nat -> list nat.
(* views/struct.py lines 78-85: the bias of node2vec *)
Definition bias (prev v : nat) : Q :=
  if Nat.eqb v prev then 1 / sp_p sp else if existsb (Nat.eqb v) (neigh prev) then 1 else 1 / sp_q sp.
(* views/struct.py lines 66-93: the remaining entries of a walk; prev is None before the first move (-1 in the code) *)
Fixpoint walk_on (todo : nat) (g : rng) (prev : option nat) (cur : nat) : list nat :=
  match todo with
  | O => []
  | S todo =>
      match neigh cur with
      | [] => cur :: walk_on todo g (Some cur) cur
      | ns =>
          let (nxt, g) := match sp_method sp, prev with
                          | Node2Vec, Some prev =>
                              let w := map (bias prev) ns in
                              if Qle_bool (Qsum w) 0 then choice g ns else choice_p g ns (map (fun x => x / Qsum w) w)
                          | _, _ => choice g ns
                          end in
          nxt :: walk_on todo g (Some cur) nxt
      end
  end.
(* views/struct.py lines 61-94: one walk of positive length *)
Definition one_walk (seed : Z) (start w : nat) : list nat :=
  start :: walk_on (Z.to_nat (sp_walk_length sp) - 1) (fresh (mix seed (Z.of_nat start * 1000003 + Z.of_nat w)%Z)) None start.
(* views/struct.py lines 47-111 _iter_random_walks, _random_walks; np.empty of a negative length is a ValueError, walk[0] of an empty one an IndexError *)
Definition random_walks (n : nat) (seed : Z) : result (list (list nat)) :=
  match n with
  | O => Ok []
  | S _ =>
      if (sp_num_walks sp <=? 0)%Z then Ok []
      else if (sp_walk_length sp <? 0)%Z then Err ValueError
      else if (sp_walk_length sp =? 0)%Z then Err IndexError
      else Ok (flat_map (fun start => map (one_walk seed start) (seq 0 (Z.to_nat (sp_num_walks sp)))) (seq 0 n))
  end.
End Walks.

(* views/struct.py lines 156-164: the pairs of one walk, in the order in which they are counted *)
Definition window_pairs (w : Z) (walk : list nat) : list (nat * nat) :=
  let l := lenZ walk in
  flat_map (fun i => map (fun j => (nth i walk O, nth j walk O))
                         (filter (fun j => negb (Nat.eqb j i)) (map Z.to_nat (map (fun t => Z.max 0 (Z.of_nat i - w) + t)%Z (arange (Z.min l (Z.of_nat i + w + 1) - Z.max 0 (Z.of_nat i - w)))))))
           (seq 0 (length walk)).
(* views/struct.py line 166: counts[(u, v)] += 1 *)
Fixpoint bump (k : nat * nat) (d : list ((nat * nat) * Z)) : list ((nat * nat) * Z) :=
  match d with
  | [] => [(k, 1%Z)]
  | (k', c) :: r => if Nat.eqb (fst k) (fst k') && Nat.eqb (snd k) (snd k') then (k', (c + 1)%Z) :: r else (k', c) :: bump k r
  end.
(* views/struct.py lines 153-154 and 165-169: the state of the count *)
Record cooc := { co_counts : list ((nat * nat) * Z); co_row : list Z; co_col : list Z; co_total : Z }.
Definition count_pair (n : nat) (s : cooc) (k : nat * nat) : cooc :=
  if Nat.ltb (fst k) n && Nat.ltb (snd k) n then
    {| co_counts := bump k (co_counts s); co_row := update (co_row s) (fst k) (fun x => (x + 1)%Z);
       co_col := update (co_col s) (snd k) (fun x => (x + 1)%Z); co_total := (co_total s + 1)%Z |}
  else s.
(* views/struct.py lines 114-174 _cooccurrence_counts with n_nodes *)
Definition cooccurrence (n : nat) (w : Z) (walks : list (list nat)) : cooc :=
  fold_left (count_pair n) (flat_map (window_pairs w) walks)
    {| co_counts := []; co_row := repeat 0%Z n; co_col := repeat 0%Z n; co_total := 0 |}.
(* views/struct.py lines 177-219 _ppmi_matrix_dense and 264-303, which fill the same matrix; a pair occurs once in counts *)
Definition lookup_pair (i j : nat) (d : list ((nat * nat) * Z)) : option Z :=
  option_map snd (find (fun e => Nat.eqb (fst (fst e)) i && Nat.eqb (snd (fst e)) j) d).
Definition ppmi (log : Q -> Q) (n : nat) (s : cooc) : mat :=
  tabulate n n (fun i j =>
    match lookup_pair i j (co_counts s) with
    | None => 0
    | Some c =>
        let r := nth i (co_row s) 0%Z in let q := nth j (co_col s) 0%Z in
        if (0 <? r)%Z && (0 <? q)%Z then
          let pmi := log (inject_Z c * inject_Z (co_total s) / (inject_Z r * inject_Z q)) in
          if Qle_bool pmi 0 then 0 else pmi
        else 0
    end).
(* views/struct.py lines 250-257: U[:, :dim] * S[:dim], with zero columns up to dim; U and s are what np.linalg.svd returns *)
Definition scaled_columns (n : nat) (dim : Z) (U : mat) (s : list Q) : mat :=
  tabulate n (Z.to_nat dim) (fun i c => if Nat.ltb c (Nat.min (Z.to_nat dim) (length s)) then entry U i c * nth c s 0 else 0).
(* views/struct.py lines 222-306 struct_embeddings; [truncated] stands for TruncatedSVD(dim, seed).fit_transform.
   Simplified: dim >= 0, and both optional packages are installed. *)
Definition struct_embeddings (rng : Type) (fresh : Z -> rng) (choice : rng -> list nat -> nat * rng) (choice_p : rng -> list nat -> list Q -> nat * rng)
    (mix : Z -> Z -> Z) (log : Q -> Q) (svd : mat -> mat * list Q) (truncated : Z -> Z -> mat -> mat)
    (ei : list (Z * Z)) (n : Z) (sp : struct_params) (seed : Z) : result mat :=
  if (n <=? 0)%Z then Ok []
  else
    let nn := Z.to_nat n in
    do walks <- random_walks rng fresh choice choice_p mix sp (nbrs n ei) nn seed;
    let M := ppmi log nn (cooccurrence nn (sp_window sp) walks) in
    if (n <=? sp_max_dense sp)%Z then let (U, s) := svd M in Ok (scaled_columns nn (sp_dim sp) U s)
    else Ok (truncated (sp_dim sp) seed M).
