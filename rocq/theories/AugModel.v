(* Model of src/modssc/data_augmentation: the operations, the pipeline and the random state they share.
   Arrays are nested lists of rationals (float32 rounding and integer dtypes not modelled), text is a
   list of code points, and the numpy generator is any record of draw functions. *)
From Coq Require Import List ZArith Bool QArith String.
From Verif Require Import Prelude SeedModel EnsembleModel.
Import ListNotations.
Open Scope Z_scope.

(* np.random.Generator: every draw returns a value and the next state *)
Record generator := {
  g_state : Type;
  g_seed : Z -> g_state;                                  (* np.random.default_rng(seed) *)
  g_unit : g_state -> Q * g_state;                        (* rng.random() *)
  g_units : nat -> g_state -> list Q * g_state;           (* rng.random(size=...) , row-major *)
  g_int : Z -> Z -> g_state -> Z * g_state;               (* rng.integers(lo, hi) *)
  g_int2 : Z -> g_state -> (Z * Z) * g_state;             (* rng.integers(0, n, size=(2,)) *)
  g_two : list nat -> g_state -> (nat * nat) * g_state;   (* rng.choice(valid, size=2, replace=False) *)
  g_normals : nat -> g_state -> list Q * g_state;         (* rng.normal(0, 1, size=...) *)
}.

(* torch's process-wide generator, and torch.Generator().manual_seed *)
Record torch_rng := {
  t_state : Type;
  t_rand : nat -> t_state -> list Q * t_state;            (* torch.rand(shape) *)
  t_randn : nat -> t_state -> list Q * t_state;           (* torch.randn(shape) *)
  t_seeded : Z -> nat -> list Q;                          (* torch.randn(shape, generator=manual_seed(seed)) *)
}.

(* ----- data ----- *)
Inductive backend := Numpy | Torch.
Inductive tensor := T1 (l : list Q) | T2 (l : list (list Q)) | T3 (l : list (list (list Q))).

Definition flat (t : tensor) : list Q :=
  match t with T1 l => l | T2 l => concat l | T3 l => concat (map (@concat Q) l) end.
Definition size (t : tensor) : nat := List.length (flat t).

(* the array of the same shape with the values l, row-major *)
Definition fill1 (l : list Q) (v : list Q) : list Q * list Q := (firstn (List.length l) v, skipn (List.length l) v).
Fixpoint fill2 (l : list (list Q)) (v : list Q) : list (list Q) * list Q :=
  match l with
  | [] => ([], v)
  | r :: rest => let '(r', v1) := fill1 r v in let '(rest', v2) := fill2 rest v1 in (r' :: rest', v2)
  end.
Fixpoint fill3 (l : list (list (list Q))) (v : list Q) : list (list (list Q)) * list Q :=
  match l with
  | [] => ([], v)
  | r :: rest => let '(r', v1) := fill2 r v in let '(rest', v2) := fill3 rest v1 in (r' :: rest', v2)
  end.
Definition refill (t : tensor) (v : list Q) : tensor :=
  match t with T1 l => T1 (fst (fill1 l v)) | T2 l => T2 (fst (fill2 l v)) | T3 l => T3 (fst (fill3 l v)) end.

Fixpoint map2 {A B C} (f : A -> B -> C) (la : list A) (lb : list B) : list C :=
  match la, lb with a :: la', b :: lb' => f a b :: map2 f la' lb' | _, _ => [] end.

Definition Qlt_bool (a b : Q) : bool := negb (Qle_bool b a).
Definition in01 (p : Q) : bool := Qle_bool 0 p && Qle_bool p 1.

(* ----- text: str.split() and " ".join ----- *)
Definition str := list Z.
Section Text.
Variable is_space : Z -> bool.

(* s.split(): the maximal runs of non-space characters *)
Fixpoint split_aux (cur : str) (s : str) : list str :=
  match s with
  | [] => match cur with [] => [] | _ => [rev cur] end
  | c :: rest => if is_space c then match cur with [] => split_aux [] rest | _ => rev cur :: split_aux [] rest end
                 else split_aux (c :: cur) rest
  end.
Definition split (s : str) : list str := split_aux [] s.
(* " ".join(words) *)
Fixpoint join (ws : list str) : str :=
  match ws with [] => [] | [w] => w | w :: rest => w ++ 32 :: join rest end.

Variable G : generator.
Notation st := (g_state G).

(* ops/text.py WordDropout._apply_one (57-67) *)
Fixpoint keep_words (p : Q) (ws : list str) (s : st) : list str * st :=
  match ws with
  | [] => ([], s)
  | w :: rest => let '(u, s1) := g_unit G s in
                 let '(kept, s2) := keep_words p rest s1 in
                 ((if Qle_bool p u then [w] else []) ++ kept, s2)
  end.
Definition word_dropout (p : Q) (x : str) (s : st) : result (str * st) :=
  match split x with
  | [] => Ok (x, s)
  | tokens =>
      if in01 p then
        let '(keep, s1) := keep_words p tokens s in
        match keep with
        | [] => let '(i, s2) := g_int G 0 (lenZ tokens) s1 in Ok (join [nth (Z.to_nat i) tokens []], s2)
        | _ => Ok (join keep, s1)
        end
      else Err ValueError
  end.

(* l[i], l[j] = l[j], l[i] *)
Definition swap_at {A} (d : A) (l : list A) (i j : nat) : list A :=
  let a := nth i l d in let b := nth j l d in update (update l i (fun _ => b)) j (fun _ => a).

(* RandomSwap._apply_one (79-89) *)
Fixpoint swap_words (n : nat) (ws : list str) (s : st) : list str * st :=
  match n with
  | O => (ws, s)
  | S n' => let '((i, j), s1) := g_int2 G (lenZ ws) s in swap_words n' (swap_at [] ws (Z.to_nat i) (Z.to_nat j)) s1
  end.
Definition random_swap (n_swaps : Z) (x : str) (s : st) : result (str * st) :=
  let tokens := split x in
  if (List.length tokens <? 2)%nat then Ok (x, s)
  else let '(ws, s1) := swap_words (Z.to_nat (Z.max 0 n_swaps)) tokens s in Ok (join ws, s1).

(* _PerItemTextOp.apply (41-44) *)
Fixpoint per_item (f : str -> st -> result (str * st)) (items : list str) (s : st) : result (list str * st) :=
  match items with
  | [] => Ok ([], s)
  | x :: rest => do ' (y, s1) <- f x s; do ' (ys, s2) <- per_item f rest s1; Ok (y :: ys, s2)
  end.

(* ----- tokens ----- *)
(* np.flatnonzero(out != pad) *)
Definition non_pad (pad : Q) (l : list Q) : list nat :=
  filter (fun i => negb (Qeq_bool (nth i l 0%Q) pad)) (seq 0 (List.length l)).

Fixpoint swap_tokens (n : nat) (valid : list nat) (l : list Q) (s : st) : list Q * st :=
  match n with
  | O => (l, s)
  | S n' => let '((i, j), s1) := g_two G valid s in swap_tokens n' valid (swap_at 0%Q l i j) s1
  end.
(* _swap_token_positions_numpy (91-105) and the torch loops (159-192) *)
Definition swap_row (n_swaps : Z) (pad : Q) (l : list Q) (s : st) : list Q * st :=
  let valid := non_pad pad l in
  if ((List.length valid <? 2)%nat || (n_swaps <=? 0)) then (l, s)
  else swap_tokens (Z.to_nat n_swaps) valid l s.
Fixpoint swap_rows (n_swaps : Z) (pad : Q) (rows : list (list Q)) (s : st) : list (list Q) * st :=
  match rows with
  | [] => ([], s)
  | r :: rest => let '(r', s1) := swap_row n_swaps pad r s in let '(rest', s2) := swap_rows n_swaps pad rest s1 in (r' :: rest', s2)
  end.
(* TokenSwap.apply (152-217) *)
Definition token_swap (n_swaps : Z) (pad : Q) (t : tensor) (s : st) : result (tensor * st) :=
  if n_swaps <=? 0 then Ok (t, s)
  else match t with
       | T1 l => let '(l', s1) := swap_row n_swaps pad l s in Ok (T1 l', s1)
       | T2 l => let '(l', s1) := swap_rows n_swaps pad l s in Ok (T2 l', s1)
       | T3 _ => Err TypeError
       end.

(* TokenMask.apply (119-142) *)
Definition token_mask (p mask pad : Q) (t : tensor) (s : st) : result (tensor * st) :=
  if in01 p then
    if Qeq_bool p 0 then Ok (t, s)
    else let '(us, s1) := g_units G (size t) s in
         Ok (refill t (map2 (fun x u => if Qlt_bool u p && negb (Qeq_bool x pad) then mask else x) (flat t) us), s1)
  else Err ValueError.

(* ----- elementwise operations ----- *)
(* ops/tabular.py FeatureDropout.apply (43-63), ops/graph.py FeatureMask (126-147) on x *)
Definition feature_dropout (p : Q) (t : tensor) (s : st) : result (tensor * st) :=
  if in01 p then
    if Qeq_bool p 0 then Ok (t, s)
    else let '(us, s1) := g_units G (size t) s in
         Ok (refill t (map2 (fun x u => if Qle_bool p u then x else 0%Q) (flat t) us), s1)
  else Err ValueError.

Variable T : torch_rng.

(* ops/common.py apply_gaussian_noise (8-30) and ops/vision.py GaussianNoise (70-89) *)
Definition gaussian_noise (std : Q) (b : backend) (t : tensor) (s : st) : result (tensor * st) :=
  if Qlt_bool std 0 then Err ValueError
  else if Qeq_bool std 0 then Ok (t, s)
  else match b with
       | Torch => let '(seed, s1) := g_int G 0 (2 ^ 31) s in
                  Ok (refill t (map2 (fun x e => x + e * std)%Q (flat t) (t_seeded T seed (size t))), s1)
       | Numpy => let '(es, s1) := g_normals G (size t) s in
                  Ok (refill t (map2 (fun x e => x + e * std)%Q (flat t) es), s1)
       end.

(* ops/tabular.py SwapNoise.apply (73-97); the torch branch draws from the process-wide generator *)
Definition swap_noise (p : Q) (b : backend) (t : tensor) (s : st) (w : t_state T) : result (tensor * st * t_state T) :=
  let mix us es := refill t (map2 (fun x ue => if Qlt_bool (fst ue) p then snd ue else x) (flat t) (combine us es)) in
  if in01 p then
    if Qeq_bool p 0 then Ok (t, s, w)
    else match b with
         | Torch => let '(us, w1) := t_rand T (size t) w in let '(es, w2) := t_randn T (size t) w1 in Ok (mix us es, s, w2)
         | Numpy => let '(us, s1) := g_units G (size t) s in let '(es, s2) := g_normals G (size t) s1 in Ok (mix us es, s2, w)
         end
  else Err ValueError.

(* ----- audio ----- *)
(* np.roll(l, shift): l[i] moves to (i + shift) mod n *)
Definition roll {A} (shift : Z) (l : list A) : list A :=
  let k := Z.to_nat ((- shift) mod lenZ l) in
  skipn k l ++ firstn k l.
(* shape[-1]; nested lists are rectangular and not empty *)
Definition last_dim (t : tensor) : nat :=
  match t with T1 l => List.length l | T2 l => List.length (hd [] l) | T3 l => List.length (hd [] (hd [] l)) end.
(* ops/audio.py TimeShift.apply (41-57) *)
Definition time_shift (max_frac : Q) (t : tensor) (s : st) : result (tensor * st) :=
  if in01 max_frac then
    if Qeq_bool max_frac 0 then Ok (t, s)
    else
      let max_shift := round_even (max_frac * inject_Z (Z.of_nat (last_dim t)))%Q in
      let '(shift, s1) := g_int G (- max_shift) (max_shift + 1) s in
      Ok (match t with
          | T1 l => T1 (roll shift l)
          | T2 l => T2 (map (roll shift) l)
          | T3 l => T3 (map (map (roll shift)) l)
          end, s1)
  else Err ValueError.

(* ----- vision ----- *)
Inductive layout := HW | HWC | CHW.
Definition shape3 (l : list (list (list Q))) : Z * Z * Z := (lenZ l, lenZ (hd [] l), lenZ (hd [] (hd [] l))).
Definition few (n : Z) : bool := (n =? 1) || (n =? 3) || (n =? 4).
(* utils.py split_image_channels_last (81-90); vision.py _torch_hw_layout (14-25) *)
Definition layout_of (b : backend) (t : tensor) : result layout :=
  match t with
  | T1 _ => Err ValueError
  | T2 _ => Ok HW
  | T3 l => let '(a, _, c) := shape3 l in
            match b with
            | Numpy => if few a && negb (few c) then Ok CHW else Ok HWC
            | Torch => if (c <=? 4) && (c <? a) then Ok HWC else Ok CHW
            end
  end.

(* run f on the height x width grid of an image: once for HW and HWC, per channel for CHW.
   fill overwrites a pixel *)
Definition on_grid (f : forall A : Type, (A -> A) -> list (list A) -> list (list A)) (v : Q) (lay : layout) (t : tensor) : tensor :=
  match lay, t with
  | HW, T2 l => T2 (f Q (fun _ => v) l)
  | HWC, T3 l => T3 (f (list Q) (map (fun _ => v)) l)
  | CHW, T3 l => T3 (map (f Q (fun _ => v)) l)
  | _, _ => t
  end.
(* H and W *)
Definition grid_size (lay : layout) (t : tensor) : Z * Z :=
  match lay, t with
  | HW, T2 l => (lenZ l, lenZ (hd [] l))
  | HWC, T3 l => (lenZ l, lenZ (hd [] l))
  | CHW, T3 l => (lenZ (hd [] l), lenZ (hd [] (hd [] l)))
  | _, _ => (0, 0)
  end.

(* RandomHorizontalFlip.apply (47-60) *)
Definition flip_grid (A : Type) (_ : A -> A) (g : list (list A)) : list (list A) := map (@rev A) g.
Definition horizontal_flip (p : Q) (b : backend) (t : tensor) (s : st) : result (tensor * st) :=
  if in01 p then
    let '(u, s1) := g_unit G s in
    if Qlt_bool u p then do lay <- layout_of b t; Ok (on_grid flip_grid 0%Q lay t, s1) else Ok (t, s1)
  else Err ValueError.

(* g[top : top + length, left : left + length] = fill *)
Definition slice_apply {B} (f : B -> B) (lo len : nat) (l : list B) : list B :=
  firstn lo l ++ map f (firstn len (skipn lo l)) ++ skipn (lo + len) l.
Definition hole_grid (top left len : nat) (A : Type) (fill : A -> A) (g : list (list A)) : list (list A) :=
  slice_apply (slice_apply fill left len) top len g.
(* Cutout.apply (104-159) *)
Fixpoint cut_holes (n : nat) (H W len : Z) (v : Q) (lay : layout) (t : tensor) (s : st) : tensor * st :=
  match n with
  | O => (t, s)
  | S n' => let '(top, s1) := g_int G 0 (Z.max 1 (H - len + 1)) s in
            let '(lft, s2) := g_int G 0 (Z.max 1 (W - len + 1)) s1 in
            cut_holes n' H W len v lay (on_grid (hole_grid (Z.to_nat top) (Z.to_nat lft) (Z.to_nat len)) v lay t) s2
  end.
Definition cutout (frac : option Q) (n_holes len : Z) (v : Q) (b : backend) (t : tensor) (s : st) : result (tensor * st) :=
  let go len_of :=
    do lay <- layout_of b t;
    let '(H, W) := grid_size lay t in
    Ok (cut_holes (Z.to_nat n_holes) H W (len_of H W) v lay t s) in
  match frac with
  | Some f => if negb (len =? 16) || negb (n_holes =? 1) then Err ValueError
              else if negb (in01 f) then Err ValueError
              else if Qeq_bool f 0 then Ok (t, s)
              else go (fun H W => Z.max 1 (round_even (f * inject_Z (Z.min H W))%Q))
  | None => if (len <=? 0) || (n_holes <=? 0) then Ok (t, s) else go (fun _ _ => len)
  end.

(* np.pad(mode="reflect") reads position i of the padded axis (shifted by pad) at mirror n i *)
Definition mirror (n i : Z) : Z :=
  if n <=? 1 then 0
  else let m := i mod (2 * (n - 1)) in if m <? n then m else 2 * (n - 1) - m.
Definition gather {A} (l : list A) (idx : list Z) : list A :=
  flat_map (fun i => match nth_error l (Z.to_nat i) with Some a => [a] | None => [] end) idx.
Definition axis_window (n start : Z) : list Z := map (fun k => mirror n (start + k)) (arange n).
Definition crop_grid (H W dy dx : Z) (A : Type) (_ : A -> A) (g : list (list A)) : list (list A) :=
  map (fun row => gather row (axis_window W dx)) (gather g (axis_window H dy)).
(* RandomCropPad.apply (174-232); torch refuses a padding that is not smaller than the axis *)
Definition crop_pad (pad_val : option Z) (padding : Z) (b : backend) (t : tensor) (s : st) : result (tensor * st) :=
  let go pad :=
    if pad <? 0 then Err ValueError
    else if pad =? 0 then Ok (t, s)
    else
      do lay <- layout_of b t;
      let '(H, W) := grid_size lay t in
      if match b with Torch => (H <=? pad) || (W <=? pad) | Numpy => false end then Err RuntimeError
      else
        let '(top, s1) := g_int G 0 (2 * pad + 1) s in
        let '(lft, s2) := g_int G 0 (2 * pad + 1) s1 in
        Ok (on_grid (crop_grid H W (top - pad) (lft - pad)) 0%Q lay t, s2) in
  match pad_val with
  | Some p => if negb (padding =? 4) then Err ValueError else go p
  | None => go padding
  end.

(* ----- graphs ----- *)
Record graph := { gr_x : tensor; gr_edges : list (list Z); gr_weight : option (list Q) }.

(* utils.py ensure_edge_index_2xE (47-65) *)
Definition edge_index_2xE (e : list (list Z)) : result (list Z * list Z) :=
  match e with
  | [a; b] => Ok (a, b)
  | _ => match hd [] e with
         | [_; _] => Ok (map (fun r => nth 0 r 0) e, map (fun r => nth 1 r 0) e)
         | _ => Err ValueError
         end
  end.
Fixpoint take {A} (l : list A) (idx : list nat) : result (list A) :=
  match idx with
  | [] => Ok []
  | i :: rest => match nth_error l i with
                 | None => Err IndexError
                 | Some a => do r <- take l rest; Ok (a :: r)
                 end
  end.
(* EdgeDropout.apply (62-116) *)
Definition edge_dropout (p : Q) (g : graph) (s : st) : result (graph * st) :=
  if in01 p then
    if Qeq_bool p 0 then Ok (g, s)
    else
      do ' (src, dst) <- edge_index_2xE (gr_edges g);
      let '(us, s1) := g_units G (List.length src) s in
      let keep := filter (fun i => Qle_bool p (nth i us 0%Q)) (seq 0 (List.length src)) in
      do src' <- take src keep;
      do dst' <- take dst keep;
      match gr_weight g with
      | None => Ok ({| gr_x := gr_x g; gr_edges := [src'; dst']; gr_weight := None |}, s1)
      | Some w => do w' <- take w keep; Ok ({| gr_x := gr_x g; gr_edges := [src'; dst']; gr_weight := Some w' |}, s1)
      end
  else Err ValueError.

(* ----- the pipeline ----- *)
Variable lower : str -> str.                              (* str.lower *)

Inductive op :=
| OIdentity | OLower | OWordDropout (p : Q) | ORandomSwap (n : Z)
| OTokenMask (p mask pad : Q) | OTokenSwap (n : Z) (pad : Q)
| OFeatureDropout (p : Q) | OGaussian (std : Q) | OSwapNoise (p : Q) | OTimeShift (f : Q)
| OFlip (p : Q) | OCutout (frac : option Q) (n_holes len : Z) (v : Q) | OCropPad (pad : option Z) (padding : Z)
| OEdgeDropout (p : Q) | OFeatureMask (p : Q).

Inductive data := DText (items : list str) | DArr (b : backend) (t : tensor) | DGraph (b : backend) (g : graph).

Definition on_text (f : str -> st -> result (str * st)) (x : data) (s : st) : result (data * st) :=
  match x with DText l => do ' (l', s1) <- per_item f l s; Ok (DText l', s1) | _ => Err TypeError end.
(* an array operation given text or a graph is outside the model and refused *)
Definition on_arr (f : backend -> tensor -> st -> result (tensor * st)) (x : data) (s : st) : result (data * st) :=
  match x with DArr b t => do ' (t', s1) <- f b t s; Ok (DArr b t', s1) | _ => Err TypeError end.

Definition apply_op (o : op) (x : data) (s : st) (w : t_state T) : result (data * st * t_state T) :=
  let pure r := do ' (y, s1) <- r; Ok (y, s1, w) in
  match o with
  | OIdentity => Ok (x, s, w)
  | OLower => pure (on_text (fun i s => Ok (lower i, s)) x s)
  | OWordDropout p => pure (on_text (word_dropout p) x s)
  | ORandomSwap n => pure (on_text (random_swap n) x s)
  | OTokenMask p m pad => pure (on_arr (fun _ => token_mask p m pad) x s)
  | OTokenSwap n pad => pure (on_arr (fun _ => token_swap n pad) x s)
  | OFeatureDropout p => pure (on_arr (fun _ => feature_dropout p) x s)
  | OGaussian std => pure (on_arr (gaussian_noise std) x s)
  | OSwapNoise p => match x with
                    | DArr b t => do ' (t', s1, w1) <- swap_noise p b t s w; Ok (DArr b t', s1, w1)
                    | _ => Err TypeError
                    end
  | OTimeShift f => pure (on_arr (fun _ => time_shift f) x s)
  | OFlip p => pure (on_arr (horizontal_flip p) x s)
  | OCutout fr n l v => pure (on_arr (cutout fr n l v) x s)
  | OCropPad p q => pure (on_arr (crop_pad p q) x s)
  | OEdgeDropout p => match x with
                      | DGraph b g => do ' (g', s1) <- edge_dropout p g s; Ok (DGraph b g', s1, w)
                      | _ => Err TypeError
                      end
  | OFeatureMask p => match x with
                      | DGraph b g => do ' (x', s1) <- feature_dropout p (gr_x g) s;
                                      Ok (DGraph b {| gr_x := x'; gr_edges := gr_edges g; gr_weight := gr_weight g |}, s1, w)
                      | _ => Err TypeError
                      end
  end.

Fixpoint run_ops (ops : list op) (x : data) (s : st) (w : t_state T) : result (data * st * t_state T) :=
  match ops with
  | [] => Ok (x, s, w)
  | o :: rest => do ' (y, s1, w1) <- apply_op o x s w; run_ops rest y s1 w1
  end.

Variable hash : string -> list Z.                         (* blake2b *)
Record context := { cx_seed : Z; cx_epoch : Z; cx_sample : Z }.
(* api.py AugmentationPipeline.apply (38-43) *)
Definition pipeline (ops : list op) (x : data) (c : context) (w : t_state T) : result (data * t_state T) :=
  do ' (y, _, w1) <- run_ops ops x (g_seed G (seed_to_rng_seed hash (cx_seed c) (cx_epoch c) (cx_sample c))) w; Ok (y, w1).
(* AugmentationStrategy.apply (56-59) *)
Definition strategy (weak strong : list op) (x : data) (c : context) (w : t_state T) : result (data * data * t_state T) :=
  do ' (a, w1) <- pipeline weak x c w; do ' (b, w2) <- pipeline strong x c w1; Ok (a, b, w2).
End Text.

(* ----- build_pipeline (67-82) ----- *)
Section Build.
Context {Op Params : Type}.
Variable make : string -> Params -> result Op.            (* registry get_op: unknown id or bad parameters raise DataAugmentationError *)
Variable modality_of : Op -> string.
Fixpoint build_pipeline (modality : option string) (steps : list (string * Params)) : result (list Op) :=
  match steps with
  | [] => Ok []
  | (id, ps) :: rest =>
      do o <- make id ps;
      if match modality with
         | None => true
         | Some m => String.eqb (modality_of o) "any" || String.eqb (modality_of o) m
         end
      then do os <- build_pipeline modality rest; Ok (o :: os)
      else Err DataAugmentationError
  end.
End Build.
