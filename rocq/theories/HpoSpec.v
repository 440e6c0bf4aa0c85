(* Vocabulary for nested mappings and search spaces. *)
From Coq Require Import String Ascii SpecFloat.
From Verif Require Import Prelude FloatModel PyValue DecString HpoModel.
Local Open Scope Z_scope.
Local Open Scope list_scope.

(* v[p0][p1]...: the value at a path of keys *)
Fixpoint get_path (v : pyval) (p : list string) : option pyval :=
  match p with
  | [] => Some v
  | k :: r => match v with
              | PDict d => match lookup d k with Some w => get_path w r | None => None end
              | _ => None
              end
  end.
Definition is_dict (v : pyval) : bool := match v with PDict _ => true | _ => false end.

(* Python dictionaries have each key once; every value does, at every depth *)
Inductive unique_keys : pyval -> Prop :=
| uk_dict d : NoDup (map fst d) -> Forall (fun kv => unique_keys (snd kv)) d -> unique_keys (PDict d)
| uk_list l : Forall unique_keys l -> unique_keys (PList l)
| uk_other v : (forall d, v <> PDict d) -> (forall l, v <> PList l) -> unique_keys v.

(* patch says nothing about the place p: it goes through mappings and ends before p or beside it *)
Definition untouched (patch : pydict) (p : list string) : Prop :=
  forall q r, p = q ++ r ->
    match get_path (PDict patch) q with None => True | Some (PDict _) => r <> [] | Some _ => False end.

(* what flatten_patch calls a leaf: anything but a non-empty mapping *)
Definition flat_leaf (v : pyval) : Prop := forall x d, v <> PDict (x :: d).
(* no key of the mapping contains the separator *)
Inductive dot_free : pyval -> Prop :=
| df_dict d : Forall (fun kv => count_char "."%char (fst kv) = 0%nat /\ dot_free (snd kv)) d -> dot_free (PDict d)
| df_other v : is_dict v = false -> dot_free v.

(* sorted() *)
Definition sorts (sort : list string -> list string) : Prop := forall l, Permutation (sort l) l.

(* the distribution specs a space may contain *)
Definition says (o : Oracle) (d : pydict) (name : string) : Prop :=
  exists v, lookup d "dist" = Some v /\ py_str o v = name.
Definition absent (d : pydict) (k : string) : Prop := lookup d k = None \/ lookup d k = Some PNone.
Definition real_at (o : Oracle) (d : pydict) (k : string) (x : f64) : Prop :=
  exists v, lookup d k = Some v /\ ((exists z, v = PInt z) \/ (exists y, v = PFloat y)) /\ py_float o v = Ok x.
Definition known_keys (d : pydict) : Prop :=
  forall k, In k (keys d) -> In k ["dist"; "low"; "high"; "values"]%string.
Inductive valid_dist (o : Oracle) (d : pydict) : distribution -> Prop :=
| vd_uniform a b : known_keys d -> says o d "uniform" -> absent d "values" ->
    real_at o d "low" a -> real_at o d "high" b -> f64_leb b a = false -> valid_dist o d (Uniform a b)
| vd_loguniform a b : known_keys d -> says o d "loguniform" -> absent d "values" ->
    real_at o d "low" a -> real_at o d "high" b -> f64_leb a f64_zero = false -> f64_leb b a = false ->
    valid_dist o d (LogUniform a b)
| vd_randint a b : known_keys d -> says o d "randint" -> absent d "values" ->
    lookup d "low" = Some (PInt a) -> lookup d "high" = Some (PInt b) -> a < b -> valid_dist o d (RandInt a b)
| vd_choice vs : known_keys d -> says o d "choice" -> absent d "low" -> absent d "high" ->
    lookup d "values" = Some (PList vs) -> vs <> [] -> valid_dist o d (Choice vs).

(* a well-formed search space, and the mapping at its root *)
Inductive valid_space (o : Oracle) : pyval -> Prop :=
| vs_list l : l <> [] -> valid_space o (PList l)
| vs_dist d spec : valid_dist o d spec -> valid_space o (PDict d)
| vs_dict d : d <> [] -> lookup d "dist" = None ->
    (forall k v, lookup d k = Some v -> k <> ""%string /\ valid_space o v) -> valid_space o (PDict d).

(* the parameters a space declares: their place and what may be put there *)
Inductive param := Listed (vs : list pyval) | Drawn (d : distribution).
Inductive declares (o : Oracle) : pyval -> list string -> param -> Prop :=
| de_list l : l <> [] -> declares o (PList l) [] (Listed l)
| de_dist d spec : valid_dist o d spec -> declares o (PDict d) [] (Drawn spec)
| de_key d k v p x : lookup d "dist" = None -> lookup d k = Some v -> declares o v p x ->
    declares o (PDict d) (k :: p) x.
(* the values grid search runs over *)
Definition candidates (x : param) : option (list pyval) :=
  match x with Listed vs | Drawn (Choice vs) => Some vs | _ => None end.
(* what random search may put there *)
Definition allowed (x : param) (v : pyval) : Prop :=
  match x with
  | Listed vs | Drawn (Choice vs) => In v vs
  | Drawn (RandInt a b) => exists z, v = PInt z /\ a <= z < b
  | Drawn (Uniform a b) => exists f, v = PFloat f /\ f64_leb a f = true /\ f64_leb f b = true
  | Drawn (LogUniform a b) => exists f, v = PFloat f
  end.

Definition comparable (p q : list string) : Prop := (exists r, q = p ++ r) \/ (exists r, p = q ++ r).

(* a choice of one candidate position per parameter *)
Definition valid_choice (gs : list (list pyval)) (ix : list nat) : Prop :=
  Forall2 (fun i vs => (i < List.length vs)%nat) ix gs.

(* choices in the order itertools.product lists them: the last parameter varies fastest *)
Inductive earlier : list nat -> list nat -> Prop :=
| ea_head i j a b : (i < j)%nat -> earlier (i :: a) (j :: b)
| ea_tail i a b : earlier a b -> earlier (i :: a) (i :: b).
(* the value chosen at each place *)
Definition picked (params : list (list string * list pyval)) (ix : list nat) : list (list string * pyval) :=
  map (fun x => (fst (fst x), nth (snd x) (snd (fst x)) PNone)) (combine params ix).
(* d holds the given values at the given places and nothing else *)
Definition holds (d : pydict) (values : list (list string * pyval)) : Prop :=
  (forall p v, In (p, v) values -> get_path (PDict d) p = Some v) /\
  (forall q w, q <> [] -> get_path (PDict d) q = Some w -> exists p v, In (p, v) values /\ comparable p q).

(* scores: NaN counts as the worst one *)
Inductive below : score -> score -> Prop :=
| be_mf z : below MinusInf (Fin z)
| be_mp : below MinusInf PlusInf
| be_ff x y : x < y -> below (Fin x) (Fin y)
| be_fp z : below (Fin z) PlusInf.
Definition counted (maximize : bool) (s : score) : score :=
  match s with Nan => if maximize then MinusInf else PlusInf | MinusInf => MinusInf | Fin z => Fin z | PlusInf => PlusInf end.
Definition beats (maximize : bool) (a b : score) : Prop := if maximize then below b a else below a b.

(* numpy's generator: integers(low, high) is in range, uniform(low, high) between its bounds *)
Definition rng_ok {S} (R : Rng S) : Prop :=
  (forall s a b, a < b -> a <= fst (r_int R s a b) < b) /\
  (forall s a b x s', r_uniform R s a b = (Ok x, s') -> f64_leb a x = true /\ f64_leb x b = true).
(* what numpy's generator in state s gives for a parameter, and the state it is left in *)
Inductive draw {S} (R : Rng S) (s : S) : param -> pyval -> S -> Prop :=
| dr_listed vs i v s' : r_int R s 0 (lenZ vs) = (i, s') -> nth_error vs (Z.to_nat i) = Some v -> draw R s (Listed vs) v s'
| dr_choice vs i v s' : r_int R s 0 (lenZ vs) = (i, s') -> nth_error vs (Z.to_nat i) = Some v -> draw R s (Drawn (Choice vs)) v s'
| dr_int a b z s' : r_int R s a b = (z, s') -> draw R s (Drawn (RandInt a b)) (PInt z) s'
| dr_uniform a b x s' : r_uniform R s a b = (Ok x, s') -> draw R s (Drawn (Uniform a b)) (PFloat x) s'
| dr_log a b la lb x y s' : m_log R a = Ok la -> m_log R b = Ok lb -> r_uniform R s la lb = (Ok x, s') -> m_exp R x = Ok y ->
    draw R s (Drawn (LogUniform a b)) (PFloat y) s'.
(* one after the other *)
Inductive draws {S} (R : Rng S) : S -> list (param * pyval) -> S -> Prop :=
| drs_nil s : draws R s [] s
| drs_cons s x v s1 l s2 : draw R s x v s1 -> draws R s1 l s2 -> draws R s ((x, v) :: l) s2.
