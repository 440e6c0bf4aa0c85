(* Model of src/modssc/transductive/methods/gnn/graphhop.py.  Exact rationals replace float32; a log-probability or a loss is
   [None] when it is not a number.  The weights of a logistic regression, the optimizer, the torch generator and the
   gradient step are parameters; the graph is prepared by GnnModel.prepare_data. *)
From Coq Require Import QArith Qminmax.
From Verif Require Import Prelude QFacts TransModel GnnModel.
From Verif Require N2vModel.
Local Open Scope Z_scope.
Local Open Scope list_scope.
Local Notation length := List.length.

(* graphhop.py lines 27-38 _build_adj_list: the sorted sets of neighbours; the loop of N2vModel.build_adjacency *)
Definition adj_list (edges : list (Z * Z)) (n : Z) (symmetrize : bool) : list (list Z) := N2vModel.build_adjacency edges n symmetrize.
(* graphhop.py lines 44-54: what is new at each hop from a node.  A set is a list without repetitions; the order in which
   Python goes through a set is not modelled *)
Definition next_ring (adj : list (list Z)) (visited frontier : list Z) : list Z :=
  filter (fun u => negb (memZ u visited)) (uniqueZ (flat_map (fun v => nth (Z.to_nat v) adj []) frontier)).
Fixpoint rings (adj : list (list Z)) (hops : nat) (visited frontier : list Z) : list (list Z) :=
  match hops with
  | O => []
  | S h => let new := next_ring adj visited frontier in new :: rings adj h (visited ++ new) new
  end.
(* graphhop.py lines 41-61 _build_hop_edges: the edges (u, i) of one hop (from 0) *)
Definition hop_edges (adj : list (list Z)) (n : Z) (hops hop : nat) : list (Z * Z) :=
  flat_map (fun i => map (fun u => (u, i)) (nth hop (rings adj hops [i] [i]) [])) (arange n).
(* graphhop.py lines 64-73 _row_normalize_weights; the degree of the target of an edge is at least 1 *)
Definition arriving (es : list (Z * Z)) (i : Z) : Z := lenZ (filter (fun e : Z * Z => snd e =? i) es).
Definition hop_weighted (es : list (Z * Z)) : list edge := map (fun e => (e, (1 / inject_Z (arriving es (snd e)))%Q)) es.
(* graphhop.py lines 277-283, 327-332: the table itself and its averages over each hop, zero without edges *)
Definition hop_tables (adj : list (list Z)) (n : Z) (hops d : nat) (F : mat) : list mat :=
  F :: map (fun h => spmm (hop_weighted (hop_edges adj n hops h)) (Z.to_nat n) d F) (seq 0 hops).
(* graphhop.py lines 76-77 _concat_features of the first m + 2 tables *)
Definition concat_features (n : nat) (l : list mat) : mat := map (fun i => flat_map (fun F : mat => nth i F []) l) (seq 0 n).
Definition hop_inputs (adj : list (list Z)) (n : Z) (hops d : nat) (F : mat) : list mat :=
  map (fun m => concat_features (Z.to_nat n) (firstn (m + 2) (hop_tables adj n hops d F))) (seq 0 hops).

(* ---- numbers that may be NaN *)
Definition oplus (a b : option Q) : option Q := match a, b with Some x, Some y => Some (x + y)%Q | _, _ => None end.
Definition omul (a b : option Q) : option Q := match a, b with Some x, Some y => Some (x * y)%Q | _, _ => None end.
Definition oscale (k : Q) (a : option Q) : option Q := match a with Some x => Some (k * x)%Q | None => None end.
Definition osum (l : list (option Q)) : option Q := fold_right oplus (Some 0%Q) l.
Definition omat := list (list (option Q)).
(* (labels * log_prob).sum() *)
Definition paired (labels : mat) (lp : omat) : option Q :=
  osum (map (fun p : list Q * list (option Q) => osum (map (fun q : Q * option Q => oscale (fst q) (snd q)) (combine (fst p) (snd p)))) (combine labels lp)).

Record hop_spec := { hs_hops : Z; hs_max_iter : Z; hs_max_epochs : Z; hs_patience : Z; hs_min_delta : Q; hs_temperature : Q;
  hs_alpha : Q; hs_beta : Q; hs_weight_temp : option (list Q); hs_weight_pred : option (list Q); hs_symmetrize : bool }.

Section GraphHop.
Variables M Op G : Type.                     (* weights, optimizer state, state of the torch generator *)
Variable fresh : G -> nat -> nat -> M * G.   (* _LogisticRegression(num_feat, num_classes) *)
Variable adam : M -> Op.                     (* torch.optim.Adam(model.parameters(), ...) *)
Variable descend : M -> Op -> (M -> option Q) -> M * Op.   (* backward and one step for this loss *)
Variable log_prob : M -> list Q -> list (option Q).        (* log_softmax(linear(x)) of a row *)
Variable soft : M -> list Q -> list Q.                     (* softmax(linear(x)) *)
Variable temp_soft : Q -> M -> list Q -> list Q.           (* softmax(linear(x) / temperature) *)
Variable expo : Q -> Q.                                    (* torch.exp *)

(* graphhop.py lines 119-142: the loss; the rows of a mask are taken from the labels and from the predictions *)
Definition per (k : Z) (x : option Q) : option Q := oscale (1 / inject_Z (Z.max k 1)) x.
Definition entropy_sum (lp : omat) : option Q := osum (map (fun r => osum (map (fun x => omul (option_map expo x) x) r)) lp).
Definition train_loss (sp : hop_spec) (first : bool) (classes : Z) (train : list bool) (X : mat) (tl pl : mat) (m : M) : option Q :=
  let others := map negb train in
  let lp mask := masked mask (map (log_prob m) X) in
  let num_train := lenZ (filter (fun b => b) train) in
  let num_pseudo := lenZ (filter (fun b => b) others) in
  if first then oscale (-1) (per num_train (paired tl (lp train)))
  else oscale (-1) (oplus (oplus (per num_train (paired tl (lp train)))
                                 (oscale (hs_alpha sp) (per (num_pseudo * classes) (paired pl (lp others)))))
                          (oscale (hs_beta sp) (per (num_pseudo * classes) (entropy_sum (lp others))))).
(* graphhop.py lines 150-153 *)
Definition valid_loss (X : mat) (val : list bool) (yv : mat) (m : M) : option Q := oscale (-1) (paired yv (map (log_prob m) (masked val X))).
(* graphhop.py line 155: not (loss_val - prev > 0 or prev - loss_val < min_delta); prev is infinity (None) at first; comparisons with NaN are false *)
Definition improves (min_delta : Q) (prev : option (option Q)) (v : option Q) : bool :=
  match prev, v with
  | Some (Some p), Some x => negb (negb (Qle_bool (x - p) 0) || negb (Qle_bool min_delta (p - x)))
  | _, _ => true
  end.
(* graphhop.py lines 123-165: the epochs with a validation set *)
Fixpoint epochs_val (loss vloss : M -> option Q) (min_delta : Q) (patience : Z) (fuel : nat) (m : M) (o : Op) (prev : option (option Q)) (bad : Z) (best : option M) : M :=
  match fuel with
  | O => match best with Some b => b | None => m end
  | S fuel =>
    let (m, o) := descend m o loss in
    let v := vloss m in
    let '(bad, best) := if improves min_delta prev v then (0, Some m) else (bad + 1, best) in
    if patience <=? bad then match best with Some b => b | None => m end
    else epochs_val loss vloss min_delta patience fuel m o (Some v) bad best
  end.
Fixpoint epochs (loss : M -> option Q) (fuel : nat) (m : M) (o : Op) : M :=
  match fuel with O => m | S fuel => let (m, o) := descend m o loss in epochs loss fuel m o end.
(* graphhop.py lines 95-166 _train_lr *)
Definition train_lr (sp : hop_spec) (step : Z) (classes : Z) (X labels : mat) (train : list bool) (val : option (list bool * mat)) (prev : option M) (g : G) : M * G :=
  let new := fresh g (length (hd [] X)) (Z.to_nat classes) in
  let (m, g) := match prev with Some m => if step <=? 1 then new else (m, g) | None => new end in
  let loss := train_loss sp (step =? 0) classes train X (masked train labels) (masked (map negb train) labels) in
  let m := match val with
           | Some (mask, yv) => epochs_val loss (valid_loss X mask yv) (hs_min_delta sp) (hs_patience sp) (Z.to_nat (hs_max_epochs sp)) m (adam m) None 0 None
           | None => epochs loss (Z.to_nat (hs_max_epochs sp)) m (adam m)
           end in (m, g).

(* a row of zeros with a one at this index; an index from -k counts from the end *)
Definition one_at (k : nat) (v : Z) : list Q := onehot_row k (if v <? 0 then v + Z.of_nat k else v).
(* sum(w[m] * preds[m]) *)
Definition weighted_sum (n c : nat) (ws : list Q) (preds : list mat) : mat :=
  tabulate n c (fun i k => Qsum (map (fun p : Q * mat => (fst p * entry (snd p) i k)%Q) (combine ws preds))).
(* graphhop.py lines 336-355: one training per hop *)
Fixpoint per_hop (sp : hop_spec) (step classes : Z) (labels : mat) (train : list bool) (val : option (list bool * mat)) (Xs : list mat) (prevs : list (option M)) (g : G) : list (M * mat) * G :=
  match Xs, prevs with
  | X :: Xs, prev :: prevs =>
    let (m, g) := train_lr sp step classes X labels train val prev g in
    let (rest, g) := per_hop sp step classes labels train val Xs prevs g in ((m, X) :: rest, g)
  | _, _ => ([], g)
  end.
(* graphhop.py lines 326-362: the iterations; returns H *)
Fixpoint hop_loop (sp : hop_spec) (fuel : nat) (step : Z) (adj : list (list Z)) (n classes : Z) (onehot : mat) (train : list bool) (val : option (list bool * mat))
    (wt wp : list Q) (H labels : mat) (prevs : list (option M)) (g : G) : mat :=
  match fuel with
  | O => H
  | S fuel =>
    let Xs := hop_inputs adj n (Z.to_nat (hs_hops sp)) (Z.to_nat classes) H in
    let (ms, g) := per_hop sp step classes labels train val Xs prevs g in
    let pick f := map (fun p : M * mat => map (f (fst p)) (snd p)) ms in
    let labels := clamp train onehot (weighted_sum (Z.to_nat n) (Z.to_nat classes) wt (pick (temp_soft (hs_temperature sp)))) in
    let H := weighted_sum (Z.to_nat n) (Z.to_nat classes) wp (pick soft) in
    hop_loop sp fuel (step + 1) adj n classes onehot train val wt wp H labels (map (fun p => Some (fst p)) ms) g
  end.
(* graphhop.py lines 311-324: the weights of the hops *)
Definition hop_weights (hops : Z) (w : option (list Q)) : list Q := match w with Some l => l | None => repeat (1 / inject_Z hops)%Q (Z.to_nat hops) end.

Variable rsqrt : Q -> Q.
Variable tiny : Q.
Variable seeded : Z -> G.                                  (* common.py:30-34 set_torch_seed *)
Record hop_state := { st_proba : mat; st_n : Z }.
(* graphhop.py lines 208-367 fit, without the identity cache of the prepared data (C107) *)
Definition hop_fit (sp : hop_spec) (seed : Z) (d : node_data) : result hop_state :=
  if hs_hops sp <? 1 then Err ValueError
  else if Qle_bool (hs_temperature sp) 0 then Err ValueError
  else
    do p <- prepare_data rsqrt tiny d false NormRw;
    let train := pp_train p in
    if negb (existsb (fun b => b) train) then Err ValueError
    else
      let val_mask := match pp_val p with Some m => if existsb (fun b => b) m then Some m else None | None => None end in
      let y := pp_y p in
      let n := pp_n p in
      let classes := count_classes y in
      let labelled := masked train y in
      if existsb (fun v => v <? 0) labelled then Err ValueError
      else if existsb (fun c => countZ c labelled =? 0) (arange classes) then Err ValueError
      else
        let adj := adj_list (nd_edges d) n (hs_symmetrize sp) in
        if existsb (fun v => v <? - classes) y then Err IndexError
        else
          let hops := Z.to_nat (hs_hops sp) in
          let onehot := map (one_at (Z.to_nat classes)) y in
          let val := match val_mask with Some m => Some (m, masked m onehot) | None => None end in
          let X := last (hop_inputs adj n hops (nd_width d) (pp_X p)) [] in
          let (m0, g) := train_lr sp 0 classes X onehot train val None (seeded seed) in
          let H := map (soft m0) X in
          let labels := clamp train onehot (map (temp_soft (hs_temperature sp) m0) X) in
          let wt := hop_weights (hs_hops sp) (hs_weight_temp sp) in
          let wp := hop_weights (hs_hops sp) (hs_weight_pred sp) in
          if negb (lenZ wt =? hs_hops sp) then Err ValueError
          else if negb (lenZ wp =? hs_hops sp) then Err ValueError
          else Ok {| st_proba := hop_loop sp (Z.to_nat (hs_max_iter sp)) 1 adj n classes onehot train val wt wp H labels (repeat None hops) g; st_n := n |}.
(* graphhop.py lines 369-375 predict_proba; None: not fitted *)
Definition hop_predict (st : option hop_state) (n_nodes : Z) : result mat :=
  match st with
  | None => Err RuntimeError
  | Some st => if negb (n_nodes =? st_n st) then Err ValueError else Ok (st_proba st)
  end.
End GraphHop.
