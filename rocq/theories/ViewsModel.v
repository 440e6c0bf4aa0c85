(* Model of src/modssc/views: plan.py (validation) and services/service.py (column selection, generate_views). *)
From Coq Require Import String Ascii SpecFloat.
From Verif Require Import Prelude FloatModel.
Local Open Scope Z_scope.
Local Open Scope list_scope.

(* plan.py:12-28 ColumnSelectSpec; an unknown mode string is Other *)
Inductive mode := All | Indices | Random | Complement | Other.
Record columns_spec := {
  cs_mode : mode; cs_indices : list Z; cs_fraction : f64;
  cs_complement_of : option string; cs_seed_offset : Z
}.
(* an empty name counts as none (plan.py:49) *)
Definition target (s : columns_spec) : option string :=
  match cs_complement_of s with Some "" => None | x => x end%string.
(* plan.py:30-52 ColumnSelectSpec.validate *)
Definition validate_columns (s : columns_spec) : result unit :=
  match cs_mode s with
  | Other => Err ViewsError
  | Indices => match cs_indices s with
               | [] => Err ViewsError
               | l => if existsb (fun i => i <? 0) l then Err ViewsError else Ok tt
               end
  | Random => if f64_ltb f64_zero (cs_fraction s) && f64_leb (cs_fraction s) f64_one then Ok tt else Err ViewsError
  | Complement => match target s with None => Err ViewsError | Some _ => Ok tt end
  | All => Ok tt
  end.

(* plan.py:55-71 ViewSpec; P stands for preprocessing plans.  meta is checked to be a dict by its type here. *)
Record view_spec (P : Type) := { v_name : string; v_preprocess : option P; v_columns : option columns_spec }.
Arguments v_name {P}. Arguments v_preprocess {P}. Arguments v_columns {P}.
(* not str(name).strip(): only ASCII whitespace *)
Definition is_space (c : ascii) : bool :=
  let n := nat_of_ascii c in (Nat.leb 9 n && Nat.leb n 13) || (Nat.leb 28 n && Nat.leb n 32).
Fixpoint blank (s : string) : bool :=
  match s with EmptyString => true | String c r => is_space c && blank r end.
Definition validate_view {P} (v : view_spec P) : result unit :=
  if blank (v_name v) then Err ViewsError
  else match v_columns v with None => Ok tt | Some s => validate_columns s end.
Fixpoint validate_each {P} (l : list (view_spec P)) : result unit :=
  match l with [] => Ok tt | v :: r => do _ <- validate_view v; validate_each r end.
Definition memN (x : string) (l : list string) : bool := existsb (String.eqb x) l.
Fixpoint dup_names (l : list string) : bool :=
  match l with [] => false | x :: r => memN x r || dup_names r end.
(* plan.py:86-96: a complement must refer to an earlier view.  str(None) is "None" but validate_columns has
   already rejected a missing name. *)
Fixpoint validate_order {P} (l : list (view_spec P)) (seen : list string) : result unit :=
  match l with
  | [] => Ok tt
  | v :: r =>
      do _ <- match v_columns v with
              | Some s => match cs_mode s, target s with
                          | Complement, Some t => if memN t seen then Ok tt else Err ViewsError
                          | Complement, None => Err ViewsError
                          | _, _ => Ok tt
                          end
              | None => Ok tt
              end;
      validate_order r (v_name v :: seen)
  end.
(* plan.py:77-96 ViewsPlan.validate *)
Definition validate_plan {P} (l : list (view_spec P)) : result unit :=
  if (List.length l <? 2)%nat then Err ViewsError
  else if dup_names (map v_name l) then Err ViewsError
  else do _ <- validate_each l; validate_order l [].

(* ----------------------------------------------------------------- service.py:30-88 *)
(* _stable_u32: the first 32 bits of a hash; default_rng(seed).choice(arange(n), size=k, replace=False) *)
Record Draws := {
  stable_u32 : string -> Z;
  choice : Z -> Z -> Z -> list Z          (* seed, n, k *)
}.
Definition assoc {A} (l : list (string * A)) (k : string) : option A :=
  match find (fun e => String.eqb (fst e) k) l with Some e => Some (snd e) | None => None end.
Fixpoint put {A} (l : list (string * A)) (k : string) (v : A) : list (string * A) :=
  match l with
  | [] => [(k, v)]
  | (a, w) :: r => if String.eqb a k then (a, v) :: r else (a, w) :: put r k v
  end.
Definition resolve_columns (D : Draws) (spec : option columns_spec) (n_features seed : Z) (view_name : string)
    (resolved : list (string * list Z)) (n_features_map : list (string * Z)) : result (list Z) :=
  if n_features <=? 0 then Err ViewsError
  else match spec with
  | None => Ok (arange n_features)
  | Some s =>
      match cs_mode s with
      | All => Ok (arange n_features)
      | m =>
          do _ <- validate_columns s;
          match m with
          | Indices =>
              let cols := cs_indices s in
              if has_dup cols then Err ViewsError
              else if existsb (fun c => (c <? 0) || (n_features <=? c)) cols then Err ViewsError
              else Ok (sortZ cols)
          | Random =>
              do r <- round_mul (cs_fraction s) n_features;
              let k := Z.max 1 (Z.min n_features r) in
              let local_seed := Z.lxor (Z.lxor seed (stable_u32 D view_name)) (cs_seed_offset s) in
              if local_seed <? 0 then Err ValueError
              else Ok (sortZ (choice D local_seed n_features k))
          | Complement =>
              match target s with
              | None => Err ViewsError
              | Some other =>
                  match assoc resolved other with
                  | None => Err ViewsError
                  | Some base =>
                      match assoc n_features_map other with
                      | Some n => if n =? n_features
                                  then match setdiff1d (arange n_features) base with
                                       | [] => Err ViewsError
                                       | cols => Ok cols
                                       end
                                  else Err ViewsError
                      | None => Err ViewsError
                      end
                  end
              end
          | _ => Err ViewsError
          end
      end
  end.

(* ---------------------------------------------------------------- service.py:91-244 *)
Section Generate.
(* V: matrix entries (or sub-arrays when ndim > 2); Y, E, M: labels, edges, masks; O: the other entries of a
   feature mapping; P: preprocessing plans *)
Context {V Y E M O P : Type}.
(* numpy arrays of fewer than two dimensions, or matrices with their number of columns *)
Inductive ndarray := Flat | Matrix (n_cols : Z) (rows : list (list V)).
(* X is an array, a mapping with an "x" entry, or a mapping without one (which becomes a 0-d array) *)
Inductive features := Plain (a : ndarray) | Keyed (a : ndarray) (others : O) | NoFeatures (others : O).
Record split := { s_X : features; s_y : Y; s_edges : E; s_masks : M }.
Record dataset := { d_train : split; d_test : option split }.
Definition get_feats (x : features) : ndarray :=
  match x with Plain a | Keyed a _ => a | NoFeatures _ => Flat end.
Definition reconstruct (orig : features) (a : ndarray) : features :=
  match orig with Keyed _ r => Keyed a r | _ => Plain a end.
(* X[:, cols]; column numbers here are never negative *)
Definition take_row (d : V) (cols : list Z) (row : list V) : list V := map (fun c => nth (Z.to_nat c) row d) cols.
Definition take (d : V) (a : ndarray) (cols : list Z) : result ndarray :=
  match a with
  | Flat => Err IndexError
  | Matrix n rows => if existsb (fun c => n <=? c) cols then Err IndexError
                     else Ok (Matrix (lenZ cols) (map (take_row d cols) rows))
  end.
Definition with_X (s : split) (x : features) : split :=
  {| s_X := x; s_y := s_y s; s_edges := s_edges s; s_masks := s_masks s |}.

Variable D : Draws.
Variable dflt : V.
(* run_preprocess(ds, plan=view.preprocess, ...) *)
Variable prep : P -> dataset -> result dataset.
(* the state of the loop over plan.views; the metadata and the log messages are not modelled *)
Record state := { st_views : list (string * dataset); st_columns : list (string * list Z); st_n : list (string * Z) }.
Definition take_split (s : split) (cols : list Z) : result split :=
  do a <- take dflt (get_feats (s_X s)) cols; Ok (with_X s (reconstruct (s_X s) a)).
(* service.py:146-223, one view *)
Definition one_view (data : dataset) (seed : Z) (st : state) (v : view_spec P) : result state :=
  do ds <- match v_preprocess v with None => Ok data | Some p => prep p data end;
  match get_feats (s_X (d_train ds)), match d_test ds with Some t => get_feats (s_X t) | None => Matrix 0 [] end with
  | Flat, _ | _, Flat => Err ViewsError
  | Matrix n_features _, Matrix _ _ =>
      do cols <- resolve_columns D (v_columns v) n_features seed (v_name v) (st_columns st) (st_n st);
      do tr <- take_split (d_train ds) cols;
      do te <- match d_test ds with
               | None => Ok None
               | Some t => do x <- take_split t cols; Ok (Some x)
               end;
      Ok {| st_views := put (st_views st) (v_name v) {| d_train := tr; d_test := te |};
            st_columns := put (st_columns st) (v_name v) cols;
            st_n := put (st_n st) (v_name v) n_features |}
  end.
Fixpoint each_view (data : dataset) (seed : Z) (st : state) (l : list (view_spec P)) : result state :=
  match l with [] => Ok st | v :: r => do st' <- one_view data seed st v; each_view data seed st' r end.
(* generate_views: the views and their columns *)
Definition generate_views (data : dataset) (plan : list (view_spec P)) (seed : Z)
  : result (list (string * dataset) * list (string * list Z)) :=
  do _ <- validate_plan plan;
  do st <- each_view data seed {| st_views := []; st_columns := []; st_n := [] |} plan;
  Ok (st_views st, st_columns st).
End Generate.
Arguments ndarray : clear implicits. Arguments features : clear implicits.
Arguments split : clear implicits. Arguments dataset : clear implicits. Arguments state : clear implicits.

(* plan.py:99-128 two_view_random_feature_split; the fraction of the complement is never read *)
Definition two_view_split {P} (pre : option P) (fraction : f64) (seed_offset : Z) (name_a name_b : string)
  : result (list (view_spec P)) :=
  let a := {| v_name := name_a; v_preprocess := pre;
              v_columns := Some {| cs_mode := Random; cs_indices := []; cs_fraction := fraction;
                                   cs_complement_of := None; cs_seed_offset := seed_offset |} |} in
  let b := {| v_name := name_b; v_preprocess := pre;
              v_columns := Some {| cs_mode := Complement; cs_indices := []; cs_fraction := fraction;
                                   cs_complement_of := Some name_a; cs_seed_offset := 0 |} |} in
  do _ <- validate_plan [a; b]; Ok [a; b].

(* service.py:197-209: the metadata.  dict(ds.meta) copies the outer dictionary only, so the nested dictionary under
   "views" is the dataset's own object when it has one.  A memory is a list of such nested dictionaries, an address a
   position in it; of an entry only the view's columns are kept.  Views without preprocessing only (a preprocessed
   dataset keeps the nested object too, preprocess/services/pipeline.py:700-711). *)
Definition memory := list (list (string * list Z)).
Fixpoint set_cell (m : memory) (a : nat) (d : list (string * list Z)) : memory :=
  match m, a with [], _ => [] | _ :: r, O => d :: r | c :: r, S a => c :: set_cell r a d end.
(* meta.setdefault("views", {}); meta["views"][name] = ... *)
Definition record_view (m : memory) (name : string) (cols : list Z) (own : option nat) : memory * nat :=
  match own with
  | Some a => (set_cell m a (put (nth a m []) name cols), a)
  | None => (m ++ [[(name, cols)]], List.length m)
  end.
(* the loop; the result lists the address of each view's nested dictionary *)
Fixpoint record_views (m : memory) (own : option nat) (cols : list (string * list Z)) : memory * list nat :=
  match cols with
  | [] => (m, [])
  | (name, c) :: r => let (m1, a) := record_view m name c own in let (m2, l) := record_views m1 own r in (m2, a :: l)
  end.
