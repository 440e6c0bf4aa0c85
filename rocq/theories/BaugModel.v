(* Model of bench/orchestrators/augmentation.py: the weak and strong views of the unlabelled examples.  Arrays are opaque
   data with a kind, a shape and an element type; a pipeline built from a plan is any function of the sample and its context
   (the torch operations that draw from the process-wide generator are those of AugModel.v, finding C35). *)
From Coq Require Import String.
From Verif Require Import Prelude PyValue.
Local Open Scope string_scope.
Local Open Scope Z_scope.
Local Open Scope list_scope.
Local Notation length := List.length.

(* lines 19-22 _check_unknown_keys *)
Definition known_keys (d : pydict) (allowed : list string) : bool := forallb (fun kv : string * pyval => existsb (String.eqb (fst kv)) allowed) d.
(* a or b, over values that may be absent (d.get gives None) *)
Definition val (v : option pyval) : pyval := match v with Some x => x | None => PNone end.
Definition py_or (a b : pyval) : pyval := if py_bool a then a else b.
(* lines 33-50: one step of a plan; bench/orchestrators/augmentation.py *)
Definition step_from (o : Oracle) (item : pyval) : result (string * pydict) :=
  match item with
  | PDict d =>
    if negb (known_keys d ["id"; "op_id"; "params"]) then Err ValueError
    else if match lookup d "id", lookup d "op_id" with
            | Some a, Some b => negb (String.eqb (py_str o a) (py_str o b))
            | _, _ => false
            end then Err ValueError
    else
      let op_id := py_str o (py_or (py_or (val (lookup d "id")) (val (lookup d "op_id"))) (PStr "")) in
      if String.eqb op_id "" then Err ValueError
      else match py_or (get_or d "params" (PDict [])) (PDict []) with
           | PDict ps => Ok (op_id, ps)
           | _ => Err ValueError
           end
  | _ => Err ValueError
  end.
Fixpoint steps_from (o : Oracle) (items : list pyval) : result (list (string * pydict)) :=
  match items with
  | [] => Ok []
  | it :: r => do s <- step_from o it; do ss <- steps_from o r; Ok (s :: ss)
  end.
(* lines 25-51 _plan_from_dict: the steps; the modality of the plan is the argument *)
Definition plan_from_dict (o : Oracle) (obj : pyval) : result (list (string * pydict)) :=
  match obj with
  | PDict d =>
    if negb (known_keys d ["steps"; "modality"]) then Err ValueError
    else match get_or d "steps" (PList []) with
         | PList items => steps_from o items
         | _ => Err ValueError
         end
  | _ => Err ValueError
  end.

Inductive kind := KNumpy | KTorch | KOther.
Definition kind_eqb (a b : kind) : bool := match a, b with KNumpy, KNumpy | KTorch, KTorch | KOther, KOther => true | _, _ => false end.
Fixpoint eqb_shape (a b : list Z) : bool := match a, b with [], [] => true | x :: r, y :: s => (x =? y) && eqb_shape r s | _, _ => false end.
(* types.py AugmentationContext with epoch 0 *)
Record actx := { ac_seed : Z; ac_sample : Z; ac_modality : option string }.

Section Run.
Variables X D A : Type.                                  (* samples, element types, contents *)
Record arr := { a_kind : kind; a_shape : list Z; a_dtype : D; a_data : A }.
Variable cast : D -> A -> A.                             (* assignment into an array of that element type *)
Variable promote : list D -> D.                          (* the element type of np.stack / torch.stack *)
Definition as_type (d : D) (x : arr) : arr := {| a_kind := a_kind x; a_shape := a_shape x; a_dtype := d; a_data := cast d (a_data x) |}.
Definition pipeline := X -> actx -> result arr.
Variable build : option string -> list (string * pydict) -> result pipeline.   (* data_augmentation/api.py build_pipeline *)

(* np.stack, torch.stack *)
Definition stack (torch : bool) (l : list arr) : result (list arr) :=
  if torch && negb (forallb (fun x => kind_eqb (a_kind x) KTorch) l) then Err TypeError
  else match l with
       | [] => Err ValueError
       | x :: r => if forallb (fun y => eqb_shape (a_shape y) (a_shape x)) r then Ok (map (as_type (promote (map a_dtype l))) l)
                   else Err (if torch then RuntimeError else ValueError)
       end.
(* what has been collected: rows of the arrays allocated from the first sample, or lists *)
Inductive collected := Pre (w s : list arr) (s1 : option (list arr)) | Lists (w s : list arr) (s1 : option (list arr)).
(* the views of one sample: strategy.apply and, for two strong views, strong.apply with seed + 1; bench/orchestrators/augmentation.py lines 155-160, 204-208 *)
Definition views_of (weak strong : pipeline) (two : bool) (seed : Z) (modality : option string) (x : X) (id : Z) : result (arr * arr * option arr) :=
  do xw <- weak x {| ac_seed := seed; ac_sample := id; ac_modality := modality |};
  do xs <- strong x {| ac_seed := seed; ac_sample := id; ac_modality := modality |};
  if two then do xs1 <- strong x {| ac_seed := seed + 1; ac_sample := id; ac_modality := modality |}; Ok (xw, xs, Some xs1)
  else Ok (xw, xs, None).
(* bench/orchestrators/augmentation.py lines 155-200: the first sample decides whether the arrays are allocated at once *)
Definition first (v : arr * arr * option arr) : collected :=
  let '(xw, xs, xs1) := v in
  let same k := kind_eqb (a_kind xw) k && kind_eqb (a_kind xs) k && match xs1 with Some z => kind_eqb (a_kind z) k | None => true end in
  let one z := [as_type (a_dtype z) z] in
  if same KTorch || same KNumpy then Pre (one xw) (one xs) (option_map one xs1)
  else Lists [xw] [xs] (option_map (fun z => [z]) xs1).
(* bench/orchestrators/augmentation.py lines 203-243: one more sample *)
Definition row0 (l : list arr) (x : arr) : arr := hd x l.
Definition put (l : list arr) (x : arr) : list arr := l ++ [as_type (a_dtype (row0 l x)) x].
Definition fits (l : list arr) (x : arr) : bool := eqb_shape (a_shape x) (a_shape (row0 l x)).
Definition more (c : collected) (v : arr * arr * option arr) : collected :=
  let '(xw, xs, xs1) := v in
  let add l x := match l, x with Some l, Some x => Some (l ++ [x]) | _, _ => l end in
  match c with
  | Pre w s s1 =>
    if fits w xw && fits s xs && match s1, xs1 with Some l, Some x => fits l x | _, _ => true end
    then Pre (put w xw) (put s xs) (match s1, xs1 with Some l, Some x => Some (put l x) | _, _ => s1 end)
    else Lists (w ++ [xw]) (s ++ [xs]) (add s1 xs1)
  | Lists w s s1 => Lists (w ++ [xw]) (s ++ [xs]) (add s1 xs1)
  end.
(* sample_ids[i]; IndexError when there are too few *)
Fixpoint collect (weak strong : pipeline) (two : bool) (seed : Z) (modality : option string) (xs : list X) (ids : list Z) (c : collected) : result collected :=
  match xs, ids with
  | [], _ => Ok c
  | _ :: _, [] => Err IndexError
  | x :: r, id :: ids => do v <- views_of weak strong two seed modality x id; collect weak strong two seed modality r ids (more c v)
  end.
(* bench/orchestrators/augmentation.py lines 245-279 *)
Definition finish (torch : bool) (c : collected) : result (list arr * list arr * option (list arr)) :=
  match c with
  | Pre w s s1 => Ok (w, s, s1)
  | Lists w s s1 =>
    do w <- stack torch w; do s <- stack torch s;
    match s1 with None => Ok (w, s, None) | Some l => do l <- stack torch l; Ok (w, s, Some l) end
  end.

(* X_u: None, one graph (a mapping with x and edge_index), or an array of samples *)
Inductive unlabelled := UNone | UGraph (x : X) | URows (torch : bool) (xs : list X).
Inductive views := VNone | VSame | VOne (x : arr) | VRows (l : list arr).
Definition is_graph (m : option string) : bool := match m with Some s => String.eqb s "graph" | None => false end.
(* bench/orchestrators/augmentation.py lines 60-279 run *)
Definition run (o : Oracle) (xu : unlabelled) (weak_plan strong_plan : pyval) (seed : Z) (mode : string) (modality : option string)
    (sample_ids : option (list Z)) (strong_views : Z) : result (views * views * option views) :=
  if negb (String.eqb mode "fixed") then Err ValueError
  else if negb ((strong_views =? 1) || (strong_views =? 2)) then Err ValueError
  else
    let two := 1 <? strong_views in
    let plans := do wp <- plan_from_dict o weak_plan; do sp <- plan_from_dict o strong_plan; Ok (wp, sp) in
    let strategy := do ' (wp, sp) <- plans; do w <- build modality wp; do s <- build modality sp; Ok (w, s) in
    match xu with
    | UNone => Ok (VNone, VNone, None)
    | UGraph x =>
      if is_graph modality
      then do ' (w, s) <- strategy;
           let id := match sample_ids with Some (i :: _) => i | _ => 0 end in
           do ' (xw, xs, xs1) <- views_of w s two seed modality x id; Ok (VOne xw, VOne xs, option_map VOne xs1)
      else do _ <- plans; Err AttributeError
    | URows _ [] => Ok (VSame, VSame, if two then Some VSame else None)
    | URows torch (x :: r) =>
      do ' (w, s) <- strategy;
      match match sample_ids with Some l => l | None => arange (lenZ (x :: r)) end with
      | [] => Err IndexError
      | id :: ids =>
        do v <- views_of w s two seed modality x id;
        do c <- collect w s two seed modality r ids (first v);
        do ' (lw, ls, ls1) <- finish torch c; Ok (VRows lw, VRows ls, option_map VRows ls1)
      end
    end.
End Run.
