(* Model of the edge-list operations:
   src/modssc/graph/construction/ops/symmetrize.py, self_loops.py, normalize.py and
   src/modssc/graph/masks.py.

   An edge list is a list of (source, destination) pairs.  For symmetrize_edges weights are of an
   arbitrary type W with np.maximum and "0.5 * (x + y)" as arbitrary functions, so the result does not
   depend on rounding.  For normalize_edge_weights weights are rational numbers: float32 rounding is
   not modelled. *)
From Coq Require Import QArith Qminmax.
From Verif Require Import Prelude.
Local Open Scope Z_scope.
Local Open Scope list_scope.

Definition edge := (Z * Z)%type.

(* np.lexsort((dst, src)): stable sort by (src, dst) *)
Definition edge_leb (a b : edge) : bool :=
  (fst a <? fst b) || ((fst a =? fst b) && (snd a <=? snd b)).
Definition edge_eqb (a b : edge) : bool := (fst a =? fst b) && (snd a =? snd b).

Fixpoint lex_insert {X} (x : edge * X) (l : list (edge * X)) : list (edge * X) :=
  match l with
  | [] => [x]
  | y :: r => if edge_leb (fst x) (fst y) then x :: l else y :: lex_insert x r
  end.
Fixpoint lexsort {X} (l : list (edge * X)) : list (edge * X) :=
  match l with [] => [] | x :: r => lex_insert x (lexsort r) end.

(* change / starts: maximal runs of equal keys, with the payloads of the run *)
Fixpoint runs {X} (l : list (edge * X)) : list (edge * list X) :=
  match l with
  | [] => []
  | (k, x) :: r =>
      match runs r with
      | (k', xs) :: t => if edge_eqb k k' then (k, x :: xs) :: t else (k, [x]) :: (k', xs) :: t
      | [] => [(k, [x])]
      end
  end.

Inductive sym_mode := SymNone | SymOr | SymMutual.

Section Symmetrize.
Context {W : Type}.
Variable maxW : W -> W -> W.
Variable avgW : W -> W -> W.

(* np.maximum.reduceat over one run *)
Definition reduce (l : list W) : option W :=
  match l with [] => None | x :: r => Some (fold_left maxW r x) end.
Fixpoint reduce_runs (l : list (edge * list W)) : list (edge * W) :=
  match l with
  | [] => []
  | (k, xs) :: r => match reduce xs with None => reduce_runs r | Some w => (k, w) :: reduce_runs r end
  end.

(* symmetrize.py:54-63: one entry per directed edge, with the largest weight of its duplicates *)
Definition directed (l : list (edge * W)) : list (edge * W) := reduce_runs (runs (lexsort l)).

Definition is_loop (p : edge * W) : bool := fst (fst p) =? snd (fst p).

(* symmetrize.py:76-78 *)
Definition canonical (p : edge * W) : edge * (bool * W) :=
  let '((s, d), w) := p in ((Z.min s d, Z.max s d), (s =? Z.min s d, w)).

(* w_fwd[group_id[forward_s]] = w_s2[forward_s]: the last one wins *)
Fixpoint last_of (fwd : bool) (l : list (bool * W)) (acc : option W) : option W :=
  match l with
  | [] => acc
  | (b, w) :: r => last_of fwd r (if Bool.eqb b fwd then Some w else acc)
  end.

(* symmetrize.py:96-121: what becomes of one undirected pair *)
Definition pair_weight (mode : sym_mode) (l : list (bool * W)) : option W :=
  match last_of true l None, last_of false l None with
  | Some x, Some y => Some (avgW x y)
  | Some x, None => match mode with SymMutual => None | _ => Some x end
  | None, Some y => match mode with SymMutual => None | _ => Some y end
  | None, None => None
  end.
Fixpoint keep_pairs (mode : sym_mode) (l : list (edge * list (bool * W))) : list (edge * W) :=
  match l with
  | [] => []
  | (k, xs) :: r =>
      match pair_weight mode xs with
      | None => keep_pairs mode r
      | Some w => (k, w) :: keep_pairs mode r
      end
  end.

Definition flip (p : edge * W) : edge * W := ((snd (fst p), fst (fst p)), snd p).

(* symmetrize.py:139-144 *)
Definition clip_edge (n : Z) (e : edge) : edge :=
  (Z.max 0 (Z.min (n - 1) (fst e)), Z.max 0 (Z.min (n - 1) (snd e))).

(* symmetrize.py:30-146 symmetrize_edges on a list of weighted edges.  Without weights the same code
   runs with W = unit.  (When the weight array is shorter than the edge array the code first cuts
   both to the shorter length, i.e. combine.) *)
Definition symmetrize (n : Z) (mode : sym_mode) (l : list (edge * W)) : list (edge * W) :=
  match mode with
  | SymNone => l
  | _ =>
      let dir := directed l in
      let loops := filter is_loop dir in
      let pairs := keep_pairs mode (runs (lexsort (map canonical (filter (fun p => negb (is_loop p)) dir)))) in
      map (fun p => (clip_edge n (fst p), snd p)) (pairs ++ map flip pairs ++ loops)
  end.
End Symmetrize.

(* ------------------------------------------------------------------------- self_loops.py:6-32 *)
(* has_loop[src[mask]] = True: numpy wraps negative indices and rejects the others *)
Definition wrap (n i : Z) : result Z :=
  if (- n <=? i) && (i <? n) then Ok (if i <? 0 then i + n else i) else Err IndexError.
Fixpoint wrap_all (n : Z) (l : list Z) : result (list Z) :=
  match l with [] => Ok [] | i :: r => do j <- wrap n i; do t <- wrap_all n r; Ok (j :: t) end.

Definition add_self_loops {W} (n : Z) (weight : W) (edges : list edge) (w : option (list W))
  : result (list edge * option (list W)) :=
  do looped <- wrap_all n (map fst (filter (fun e => fst e =? snd e) edges));
  let missing := filter (fun i => negb (memZ i looped)) (arange n) in
  match missing with
  | [] => Ok (edges, w)
  | _ => Ok (edges ++ map (fun i => (i, i)) missing,
             match w with None => None | Some ws => Some (ws ++ map (fun _ => weight) missing) end)
  end.

(* -------------------------------------------------------------------------- normalize.py:10-48 *)
Inductive norm_mode := NormNone | NormRw | NormSym.
Local Open Scope Q_scope.

(* sum of the weights of the edges leaving node i *)
Fixpoint degree (edges : list edge) (w : list Q) (i : Z) : Q :=
  match edges, w with
  | e :: er, x :: xr => (if (fst e =? i)%Z then x else 0) + degree er xr i
  | _, _ => 0
  end.

Section Normalize.
(* 1 / np.sqrt(x), an arbitrary function *)
Variable inv_sqrt : Q -> Q.

Definition normalize (edges : list edge) (w : option (list Q)) (mode : norm_mode) (eps : Q)
  : option (list Q) :=
  match mode, w with
  | NormNone, _ => w
  | _, None => None
  | NormRw, Some ws =>
      Some (map (fun p => snd p * (1 / Qmax (degree edges ws (fst (fst p))) eps)) (combine edges ws))
  | NormSym, Some ws =>
      Some (map (fun p => snd p * inv_sqrt (Qmax (degree edges ws (fst (fst p))) eps)
                                * inv_sqrt (Qmax (degree edges ws (snd (fst p))) eps))
                (combine edges ws))
  end.
End Normalize.

(* ------------------------------------------------------------------------------ masks.py:27-69 *)
Local Open Scope Z_scope.
Record node_masks := { nm_train : list bool; nm_val : list bool; nm_test : list bool;
                       nm_unlabeled : list bool }.
Definition outside (n : Z) (idx : list Z) : bool := existsb (fun i => (i <? 0) || (n <=? i)) idx.
Definition to_mask (n : Z) (idx : list Z) : list bool := map (fun i => memZ i idx) (arange n).

Definition masks_from_indices (n : Z) (train val test : list Z) (labeled : option (list Z))
  : result node_masks :=
  if n <=? 0 then Err GraphValidationError
  else if outside n train || outside n val || outside n test then Err GraphValidationError
  else
    let tr := to_mask n train in
    do un <- match labeled with
             | None => Ok (map negb tr)
             | Some l =>
                 if outside n l then Err GraphValidationError
                 else Ok (map (fun p => fst p && negb (snd p)) (combine tr (to_mask n l)))
             end;
    Ok {| nm_train := tr; nm_val := to_mask n val; nm_test := to_mask n test; nm_unlabeled := un |}.

(* ------------------------------------------ construction/services/service.py:153-189 post-processing *)
Record artifact := { ga_n : Z; ga_edges : list edge; ga_weights : option (list Q); ga_directed : bool }.

(* artifacts.py:36-48 GraphArtifact.__post_init__ (the shape checks on edge_index hold by construction) *)
Definition make_artifact (n : Z) (edges : list edge) (w : option (list Q)) (directed : bool)
  : result artifact :=
  if existsb (fun e : edge => (fst e <? 0) || (n <=? fst e) || (snd e <? 0) || (n <=? snd e)) edges
  then Err GraphValidationError
  else match w with
       | Some ws => if negb (lenZ ws =? lenZ edges) then Err GraphValidationError
                    else Ok {| ga_n := n; ga_edges := edges; ga_weights := w; ga_directed := directed |}
       | None => Ok {| ga_n := n; ga_edges := edges; ga_weights := w; ga_directed := directed |}
       end.

(* service.py:153-189: symmetrise, add self-loops, normalise, build the artifact.  compute_edge_weights
   always returns weights, so they are not optional here.  Rational weights are always finite, so the
   check of service.py:172-175 cannot fail in the model. *)
Definition q_avg (x y : Q) : Q := ((1 # 2) * (x + y))%Q.
Definition post_process (inv_sqrt : Q -> Q) (n : Z) (sym : sym_mode) (self_loops : bool) (nm : norm_mode)
    (eps : Q) (raw : list (edge * Q)) : result artifact :=
  let s := symmetrize Qmax q_avg n sym raw in
  do ' (edges, w) <- (if self_loops
                      then add_self_loops n 1%Q (map fst s) (Some (map snd s))
                      else Ok (map fst s, Some (map snd s)));
  make_artifact n edges (normalize inv_sqrt edges w nm eps)
                (match sym with SymNone => true | _ => false end).
