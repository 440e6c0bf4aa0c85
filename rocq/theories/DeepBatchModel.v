(* Model of src/modssc/inductive/methods/helpers/torch_support.py: how the deep methods cut their data into
   mini-batches, score query rows batch by batch, and slice and join graph inputs.  Tensors are lists of rows, torch
   generators are arbitrary state machines, models are arbitrary functions of a batch. *)
From Coq Require Import QArith.
From Verif Require Import Prelude.
Local Open Scope Z_scope.
Local Open Scope list_scope.

(* torch.Generator as used here: randperm(n, generator=g) *)
Record Gen (St : Type) := { g_perm : St -> nat -> list nat * St }.
Arguments g_perm {St}.

(* num_batches (torch_support.py 315-316).  The quotient is exact here; the code divides two floats. *)
Definition num_batches (n b : Z) : Z := Z.max 1 ((n + b - 1) / b).

(* range(0, n, b) for n >= 0; a zero step is rejected by range itself *)
Definition py_range (n b : Z) : result (list Z) :=
  if b =? 0 then Err ValueError
  else if b <? 0 then Ok []
  else Ok (map (fun k => Z.of_nat k * b) (seq 0 (Z.to_nat ((n + b - 1) / b)))).
(* l[start : start + b] for start >= 0, b > 0 *)
Definition slice {A} (l : list A) (start b : Z) : list A := firstn (Z.to_nat b) (skipn (Z.to_nat start) l).

Section Batches.
Context {St : Type}.
Variable G : Gen St.

(* _iter_batch_indices (torch_support.py 319-325): a generator, so nothing is drawn before the first next() *)
Definition iter_batch_indices (n : nat) (b : Z) (s : St) : result (list (list nat) * St) :=
  let '(idx, s1) := g_perm G s n in
  do starts <- py_range (Z.of_nat n) b;
  Ok (map (fun start => slice idx start b) starts, s1).

(* cycle_batch_indices (torch_support.py 328-338).  [pending] is what the current pass still has to yield.  When a
   fresh pass yields nothing its StopIteration leaves the generator and becomes a RuntimeError. *)
Fixpoint cycle (n : nat) (b : Z) (steps : nat) (pending : list (list nat)) (s : St) : result (list (list nat) * St) :=
  match steps with
  | O => Ok ([], s)
  | S k =>
      match pending with
      | i :: rest => do ' (bs, s') <- cycle n b k rest s; Ok (i :: bs, s')
      | [] => do ' (fresh, s1) <- iter_batch_indices n b s;
              match fresh with
              | [] => Err RuntimeError
              | i :: rest => do ' (bs, s') <- cycle n b k rest s1; Ok (i :: bs, s')
              end
      end
  end.
Definition cycle_batch_indices (n : nat) (b : Z) (steps : Z) (s : St) : result (list (list nat) * St) :=
  cycle n b (Z.to_nat steps) [] s.

(* cycle_batches (torch_support.py 418-450) on a tensor with labels *)
Definition rows {A} (l : list A) (idx : list nat) (d : A) : list A := map (fun i => nth i l d) idx.
Definition cycle_batches {X} (dx : X) (xs : list X) (ys : list Z) (b steps : Z) (s : St) : result (list (list X * list Z) * St) :=
  if lenZ xs <=? 0 then Err InductiveValidationError
  else do ' (idx, s1) <- cycle_batch_indices (length xs) b steps s;
       Ok (map (fun i => (rows xs i dx, rows ys i 0)) idx, s1).

(* the loop over epochs shared by the fit methods (fixmatch.py 147-172 and its copies in the other methods): how many
   steps an epoch has, and the labelled and unlabelled batches of every step.  One generator per side. *)
Definition steps_per_epoch (n_l n_u b : Z) : Z := Z.max (num_batches n_l b) (num_batches n_u b).
Fixpoint epoch_batches (epochs : nat) (n : nat) (b steps : Z) (s : St) : result (list (list (list nat)) * St) :=
  match epochs with
  | O => Ok ([], s)
  | S e => do ' (bs, s1) <- cycle_batch_indices n b steps s;
           do ' (rest, s2) <- epoch_batches e n b steps s1;
           Ok (bs :: rest, s2)
  end.
Definition fit_batches (n_l n_u : nat) (b : Z) (max_epochs : Z) (sl su : St) : result (list (list (list nat * list nat))) :=
  if (Z.of_nat n_l =? 0) || (Z.of_nat n_u =? 0) then Err InductiveValidationError
  else if b <=? 0 then Err InductiveValidationError
  else if max_epochs <=? 0 then Err InductiveValidationError
  else
    let steps := steps_per_epoch (Z.of_nat n_l) (Z.of_nat n_u) b in
    do ' (ls, _) <- epoch_batches (Z.to_nat max_epochs) n_l b steps sl;
    do ' (us, _) <- epoch_batches (Z.to_nat max_epochs) n_u b steps su;
    Ok (map (fun p => combine (fst p) (snd p)) (combine ls us)).
End Batches.

(* ------------------------------------------------------------------ prediction, batch by batch *)
Section Predict.
Context {X R P : Type}.
Variable call : bool -> list X -> option (list R).    (* the model's logits for one batch, given model.training; None: not 2-D *)
Variable softmax : R -> P.
(* predict_proba_from_bundle (torch_support.py 87-139) on a tensor: the outcome and model.training afterwards *)
Fixpoint predict_loop (xs : list X) (b : Z) (starts : list Z) : result (list R) :=
  match starts with
  | [] => Ok []
  | st :: rest => match call false (slice xs st b) with
                  | None => Err InductiveValidationError
                  | Some out => do more <- predict_loop xs b rest; Ok (out ++ more)
                  end
  end.
Definition predict_proba (fitted : bool) (training : bool) (xs : list X) (b : Z) : result (list P) * bool :=
  if negb fitted then (Err RuntimeError, training)
  else match py_range (lenZ xs) b with
       | Err e => (Err e, false)
       | Ok starts => match predict_loop xs b starts with
                      | Err e => (Err e, false)                            (* no finally: the model stays in eval mode *)
                      | Ok logits => (Ok (map softmax logits), training)   (* if was_training: model.train() *)
                      end
       end.
End Predict.

(* ------------------------------------------------------------------ graph inputs *)
(* a dict with "x", "edge_index" and possibly "edge_weight" *)
Record graph (X : Type) := { gx : list X; gedges : list (nat * nat); gweight : option (list Q) }.
Arguments gx {X}. Arguments gedges {X}. Arguments gweight {X}.

(* where a node went: its position in idx *)
Fixpoint position (i : nat) (idx : list nat) : option nat :=
  match idx with
  | [] => None
  | j :: r => if Nat.eqb i j then Some O else option_map S (position i r)
  end.
(* torch_geometric.utils.subgraph(idx, edge_index, relabel_nodes=True): keeps the edges with both ends in idx, in their
   order, with the new numbers *)
Definition subgraph (idx : list nat) (es : list (nat * nat)) : list (nat * nat) :=
  flat_map (fun e => match position (fst e) idx, position (snd e) idx with Some a, Some b => [(a, b)] | _, _ => [] end) es.
(* slice_data (torch_support.py 341-382) on a graph: a tensor whose first dimension equals the number of nodes is indexed
   by nodes, any other entry, the edge weights included, is passed on unchanged *)
Definition slice_graph {X} (dx : X) (g : graph X) (idx : list nat) : graph X :=
  {| gx := map (fun i => nth i (gx g) dx) idx;
     gedges := subgraph idx (gedges g);
     gweight := option_map (fun w => if Nat.eqb (length w) (length (gx g)) then map (fun i => nth i w 0%Q) idx else w) (gweight g) |}.

(* concat_data (torch_support.py 233-292) on graphs that all have an edge_index *)
Fixpoint offset_edges {X} (off : nat) (gs : list (graph X)) : list (nat * nat) :=
  match gs with
  | [] => []
  | g :: r => map (fun e => (fst e + off, snd e + off)%nat) (gedges g) ++ offset_edges (off + length (gx g)) r
  end.
Definition concat_graphs {X} (gs : list (graph X)) : graph X :=
  let ws := flat_map (fun g => match gweight g with Some w => [w] | None => [] end) gs in
  {| gx := flat_map gx gs;
     gedges := offset_edges 0 gs;
     gweight := match ws with [] => None | _ => Some (concat ws) end |}.

(* predict_proba_from_bundle (torch_support.py 87-139) on a graph: every batch is the sliced graph of its nodes, so an
   edge between two batches is seen by neither *)
Section PredictGraph.
Context {X R P : Type}.
Variable call : graph X -> list R.                    (* the model in eval mode *)
Variable softmax : R -> P.
Definition predict_graph (dx : X) (g : graph X) (b : Z) : result (list P) :=
  do starts <- py_range (lenZ (gx g)) b;
  Ok (map softmax (flat_map (fun st => call (slice_graph dx g (slice (seq 0 (length (gx g))) st b))) starts)).
End PredictGraph.
