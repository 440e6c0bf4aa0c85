(* Model of src/modssc/transductive/methods/classic/tsvm.py.  Exact rationals replace floating point.  The random initial
   weights, the permutations of the generator, np.argsort and np.exp are parameters. *)
From Coq Require Import QArith Qminmax Qabs.
From Verif Require Import Prelude QFacts TransModel EnsembleModel.
Local Open Scope Q_scope.
Local Open Scope list_scope.

(* lines 95-107 *)
Record tsvm_spec := { ts_max_iter : Z; ts_epochs : Z; ts_batch : Z; ts_lr : Q; ts_C_l : Q; ts_C_u_max : Q; ts_l2 : Q; ts_balance : bool }.
(* the dataset: X with as many rows as labels, and meta["y_true"] when meta is a mapping that has it *)
Record tsvm_data := { td_X : list (list Q); td_y : list Z; td_edges : list (Z * Z);
  td_train : option (list bool); td_unlabeled : option (list bool); td_others : list (list bool); td_y_true : option (list Z) }.

(* lines 17-36 _encode_binary *)
Definition nonneg_classes (l : list Z) : list Z := uniqueZ (filter (fun v => (v >=? 0)%Z) l).
Definition encode_binary (y : list Z) (train : list bool) (full_y : list Z) : result (list Q * (Z * Z)) :=
  let classes := nonneg_classes (masked train y) in
  let classes := if (lenZ classes =? 2)%Z then classes else nonneg_classes full_y in
  match classes with
  | [neg; pos] => Ok (map (fun v => if (v =? pos)%Z then 1 else if (v =? neg)%Z then -(1) else 0) y, (neg, pos))
  | _ => Err ValueError
  end.

(* the state of _LinearSVM: lines 52-55; decision_function: lines 57-59 *)
Record svm := { sv_w : list Q; sv_b : Q }.
Definition score (m : svm) (x : list Q) : Q := dot x (sv_w m) + sv_b m.
Notation example := (list Q * Q)%type (only parsing).
(* lines 79-92: one batch *)
Definition sgd_step (lr C l2 : Q) (batch : list example) (m : svm) : svm :=
  let active := filter (fun e : example => negb (Qle_bool 1 (snd e * score m (fst e)))) batch in
  let gw j := match active with
              | [] => nth j (sv_w m) 0 * l2
              | _ => nth j (sv_w m) 0 * l2 - C * Qsum (map (fun e : example => nth j (fst e) 0 * snd e) active) / Qmax 1 (inject_Z (lenZ active))
              end in
  let gb := match active with [] => 0 | _ => - C * Qmean (map snd active) end in
  {| sv_w := map (fun j => nth j (sv_w m) 0 - lr * gw j) (seq 0 (List.length (sv_w m))); sv_b := sv_b m - lr * gb |}.

Section Tsvm.
Variable G : Type.
Variable permutation : list nat -> G -> list nat * G.   (* rng.permutation(idx) *)
Variable argsort : list Q -> list nat.
Variable ex : Q -> Q.                                   (* np.exp *)

(* perm[i : i + bs] for i in range(0, perm.size, bs) *)
Fixpoint slices {A} (fuel : nat) (bs : nat) (l : list A) : list (list A) :=
  match fuel, l with
  | S f, _ :: _ => firstn bs l :: slices f bs (skipn bs l)
  | _, _ => []
  end.
(* lines 39-46 _batch_indices: range refuses a step of 0 and is empty for a negative step *)
Definition batch_indices (idx : list nat) (bs : Z) (g : G) : result (list (list nat) * G) :=
  match idx with
  | [] => Ok ([], g)
  | _ => let (p, g) := permutation idx g in
         if (bs =? 0)%Z then Err ValueError
         else if (bs <? 0)%Z then Ok ([], g)
         else Ok (slices (List.length p) (Z.to_nat bs) p, g)
  end.
(* lines 61-92 fit_sgd *)
Fixpoint fit_sgd (epochs : nat) (data : list example) (bs : Z) (lr C l2 : Q) (m : svm) (g : G) : result (svm * G) :=
  match epochs with
  | O => Ok (m, g)
  | S e =>
      do ' (batches, g) <- batch_indices (seq 0 (List.length data)) bs g;
      let m := fold_left (fun m b => sgd_step lr C l2 (map (fun i => nth i data ([], 0)) b) m) batches m in
      fit_sgd e data bs lr C l2 m g
  end.

(* lines 181-191: the guesses for the unlabelled nodes *)
Definition guesses (balance : bool) (scores : list Q) : list Q :=
  let y_u := map (fun s => if Qle_bool 0 s then 1 else -(1)) scores in
  let one_sided := forallb (fun s => Qle_bool 0 s) scores || forallb (fun s => negb (Qle_bool 0 s)) scores in
  if balance && one_sided then
    let order := argsort (map Qabs scores) in
    let half := Nat.div (List.length order) 2 in
    let y_u := fold_left (fun l i => update l i (fun _ => -(1))) (firstn half order) y_u in
    fold_left (fun l i => update l i (fun _ => 1)) (skipn half order) y_u
  else y_u.
Definition smallest_C : Q := 1 # 1000000.
(* lines 176-215: the rounds; C_u is the penalty of the round *)
Fixpoint rounds (k : nat) (sp : tsvm_spec) (lab : list example) (unl : list (list Q)) (C_u : Q) (m : svm) (g : G) : result svm :=
  match k, unl with
  | O, _ => Ok m
  | _, [] => Ok m
  | S k, _ =>
      let y_u := guesses (ts_balance sp) (map (score m) unl) in
      let rep := Z.max 1 (round_even (ts_C_l sp / Qmax C_u smallest_C)) in
      (* np.repeat and vstack; with rep = 1 the labelled rows as they are *)
      let data := concat (map (fun e => repeat e (Z.to_nat rep)) lab) ++ combine unl y_u in
      do ' (m, g) <- fit_sgd (Z.to_nat (ts_epochs sp)) data (ts_batch sp) (ts_lr sp) (Qmax C_u smallest_C) (ts_l2 sp) m g;
      rounds k sp lab unl (Qmin (ts_C_u_max sp) (C_u * 10)) m g
  end.
(* lines 129-225 fit: the classes and the trained machine; w0 are the initial weights of line 54 *)
Definition tsvm_fit (sp : tsvm_spec) (d : tsvm_data) (w0 : list Q) (g : G) : result ((Z * Z) * svm) :=
  if negb (lenZ (td_X d) =? lenZ (td_y d))%Z then Err TransductiveValidationError
  else
    let opt o := match o with Some m => [m] | None => [] end in
    do _ <- validate_node (td_y d) (td_edges d) (opt (td_train d) ++ opt (td_unlabeled d) ++ td_others d);
    match td_train d with
    | None => Err ValueError
    | Some train =>
        let unlabeled := match td_unlabeled d with Some u => u | None => map negb train end in
        if negb (existsb (fun b => b) train) then Err ValueError
        else
          let full_y := match td_y_true d with Some t => t | None => td_y d end in
          do ' (y_pm1, classes) <- encode_binary (td_y d) train full_y;
          let lab := map (fun i => (nth i (td_X d) [], nth i y_pm1 0)) (flatnonzero train) in
          let unl := map (fun i => nth i (td_X d) []) (flatnonzero unlabeled) in
          do ' (m, g) <- fit_sgd (Z.to_nat (ts_epochs sp)) lab (ts_batch sp) (ts_lr sp) (ts_C_l sp) (ts_l2 sp) {| sv_w := w0; sv_b := 0 |} g;
          do m <- rounds (Z.to_nat (ts_max_iter sp)) sp lab unl (1 # 1000) m g;
          Ok (classes, m)
    end.
(* lines 227-235 predict_proba; [fitted] is what fit left in the object *)
Definition predict_proba (fitted : option ((Z * Z) * svm)) (X : list (list Q)) : result (list (list Q)) :=
  match fitted with
  | None => Err RuntimeError
  | Some (_, m) => Ok (map (fun x => let p1 := 1 / (1 + ex (- score m x)) in [1 - p1; p1]) X)
  end.
End Tsvm.
