(* What a plan of views asks for. *)
From Coq Require Import String Ascii SpecFloat.
From Verif Require Import Prelude FloatModel SamplingSpec ViewsModel.
Local Open Scope Z_scope.
Local Open Scope list_scope.

Definition well_formed_columns (s : columns_spec) : Prop :=
  match cs_mode s with
  | Other => False
  | All => True
  | Indices => cs_indices s <> [] /\ forall i, In i (cs_indices s) -> 0 <= i
  | Random => f64_ltb f64_zero (cs_fraction s) = true /\ f64_leb (cs_fraction s) f64_one = true
  | Complement => exists t, cs_complement_of s = Some t /\ t <> ""%string
  end.
(* at least two views, different non-blank names, well-formed selections, complements of earlier views only *)
Definition well_formed_plan {P} (plan : list (view_spec P)) : Prop :=
  (2 <= List.length plan)%nat /\ NoDup (map v_name plan) /\
  (forall v, In v plan -> blank (v_name v) = false /\ forall s, v_columns v = Some s -> well_formed_columns s) /\
  (forall before v after s, plan = before ++ v :: after -> v_columns v = Some s -> cs_mode s = Complement ->
     exists u, In u before /\ cs_complement_of s = Some (v_name u)).

(* choice(..., replace=False): k different columns *)
Definition draws_ok (D : Draws) : Prop :=
  forall seed n k, 0 <= k <= n -> lenZ (choice D seed n k) = k /\ NoDup (choice D seed n k) /\
    forall c, In c (choice D seed n k) -> 0 <= c < n.

(* what the selection says about the columns of a view of n features *)
Definition describes (columns : list (string * list Z)) (spec : option columns_spec) (n : Z) (cols : list Z) : Prop :=
  match spec with
  | None => forall c, In c cols <-> 0 <= c < n
  | Some s =>
      match cs_mode s with
      | All => forall c, In c cols <-> 0 <= c < n
      | Indices => forall c, In c cols <-> In c (cs_indices s)
      | Random => exists r, rounded_share (cs_fraction s) n r /\ lenZ cols = Z.max 1 (Z.min n r)
      | Complement => exists other base, cs_complement_of s = Some other /\ In (other, base) columns /\
                        forall c, In c cols <-> 0 <= c < n /\ ~ In c base
      | Other => False
      end
  end.

(* the same split, restricted to the given columns *)
Section Restrict.
Context {V Y E M O : Type}.
Variable dflt : V.
Definition restricted_array (cols : list Z) (a b : ndarray V) : Prop :=
  match a, b with
  | Matrix n rows, Matrix m rows' =>
      m = lenZ cols /\ List.length rows' = List.length rows /\
      (forall c, In c cols -> 0 <= c < n) /\
      forall i, (i < List.length rows)%nat ->
        List.length (nth i rows' []) = List.length cols /\
        forall j, (j < List.length cols)%nat ->
          nth j (nth i rows' []) dflt = nth (Z.to_nat (nth j cols 0)) (nth i rows []) dflt
  | _, _ => False
  end.
Definition restricted_features (cols : list Z) (a b : features V O) : Prop :=
  match a, b with
  | Plain x, Plain y => restricted_array cols x y
  | Keyed x r, Keyed y r' => restricted_array cols x y /\ r = r'
  | _, _ => False
  end.
Definition restricted_split (cols : list Z) (a b : split V Y E M O) : Prop :=
  restricted_features cols (s_X a) (s_X b) /\ s_y a = s_y b /\ s_edges a = s_edges b /\ s_masks a = s_masks b.
Definition restricted (cols : list Z) (a b : dataset V Y E M O) : Prop :=
  restricted_split cols (d_train a) (d_train b) /\
  match d_test a, d_test b with
  | Some x, Some y => restricted_split cols x y
  | None, None => True
  | _, _ => False
  end.
End Restrict.
Definition n_columns {V Y E M O} (d : dataset V Y E M O) (n : Z) : Prop := exists rows, get_feats (s_X (d_train d)) = Matrix n rows.

(* the view called v_name v: the dataset, preprocessed if the view says so, restricted to a non-empty, strictly
   ascending, in-range list of columns that its selection describes; a complement has as many features to choose
   from as its partner.  [nmap] records the number of features seen by each view. *)
Definition view_of {V Y E M O P} (dflt : V) (prep : P -> dataset V Y E M O -> result (dataset V Y E M O))
    (data : dataset V Y E M O) (cols_all : list (string * list Z)) (views : list (string * dataset V Y E M O))
    (nmap : list (string * Z)) (v : view_spec P) : Prop :=
  exists ds n cols view,
    match v_preprocess v with None => ds = data | Some p => prep p data = Ok ds end /\
    n_columns ds n /\ In (v_name v, n) nmap /\
    In (v_name v, cols) cols_all /\ In (v_name v, view) views /\
    cols <> [] /\ ascending cols /\ (forall c, In c cols -> 0 <= c < n) /\
    describes cols_all (v_columns v) n cols /\
    (forall s, v_columns v = Some s -> cs_mode s = Complement -> exists other, cs_complement_of s = Some other /\ In (other, n) nmap) /\
    restricted dflt cols ds view.
(* a dataset whose training features form a matrix of n columns and whose test features have at least as many *)
Definition wide {V Y E M O} (data : dataset V Y E M O) (n : Z) : Prop :=
  n_columns data n /\ (forall t, d_test data = Some t -> exists m rows, get_feats (s_X t) = Matrix m rows /\ n <= m).
