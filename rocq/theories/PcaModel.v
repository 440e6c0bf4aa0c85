(* Model of the linear feature steps: src/modssc/preprocess/steps/core/pca.py,
   src/modssc/preprocess/steps/core/random_projection.py and
   src/modssc/preprocess/steps/vision/zca_whitening.py.  Numbers are rationals (rounding is not
   modelled); a cell that is not finite is None.  The singular value decomposition, the eigenvalue
   decomposition, the square root and the random generator are arguments. *)
From Coq Require Import QArith.
From Verif Require Import Prelude QFacts TransModel TokModel.
Local Open Scope Q_scope.
Local Open Scope list_scope.

(* a two dimensional array: its width and its rows *)
Record array (A : Type) := { width : nat; body : list (list A) }.
Arguments Build_array {A}. Arguments width {A}. Arguments body {A}.

Definition dot (x y : list Q) : Q := Qsum (map (fun p : Q * Q => fst p * snd p) (combine x y)).
Definition subtract (x y : list Q) : list Q := map (fun p : Q * Q => fst p - snd p) (combine x y).

Section Pca.
(* np.linalg.svd(X, full_matrices=False)[2] of an array of the given width *)
Variable svd : nat -> mat -> mat.

Definition cell := option Q.
Definition finite_of (c : cell) : list Q := match c with Some q => [q] | None => [] end.
(* np.isfinite, np.mean(where=finite) and the replacement of a missing mean by 0:
   src/modssc/preprocess/steps/core/pca.py 34-39; the branch of line 36 is the case without missing
   cells *)
Definition impute_of (d : nat) (rows : list (list cell)) : list Q :=
  map (fun j => match flat_map (fun r => finite_of (nth j r None)) rows with
                | [] => 0
                | l => Qmean l
                end) (seq 0 d).
(* np.copyto(X, impute, where=~finite): pca.py 40, 71-73 *)
Definition fill (impute : list Q) (r : list cell) : list Q :=
  map (fun p : cell * Q => match fst p with Some q => q | None => snd p end) (combine r impute).
(* X.mean(axis=0): src/modssc/preprocess/steps/core/pca.py 42 *)
Definition col_means (d : nat) (rows : mat) : list Q :=
  map (fun j => Qmean (map (fun r => nth j r 0) rows)) (seq 0 d).

Record pca := { p_mean : list Q; p_components : mat; p_impute : list Q }.

(* src/modssc/preprocess/steps/base.py 13-17: get_X *)
Definition get_X {A} (features raw : option A) : result A :=
  match features, raw with
  | Some x, _ => Ok x
  | None, Some x => Ok x
  | None, None => Err KeyError
  end.

(* src/modssc/preprocess/steps/core/pca.py 22-52, on two dimensional arrays (others are refused,
   line 28); X[idx] wraps negative positions *)
Definition pca_fit (n_components : Z) (center : bool) (features raw : option (array cell)) (idx : list Z) : result pca :=
  do X <- get_X features raw;
  do chosen <- take_rows (body X) idx;
  let d := width X in
  match chosen with
  | [] => Err PreprocessError
  | _ =>
      let impute := impute_of d chosen in
      let filled := map (fill impute) chosen in
      let mean := if center then col_means d filled else map (fun _ => 0) (seq 0 d) in
      let centred := if center then map (fun r => subtract r mean) filled else filled in
      let vt := svd d centred in
      let k := Z.max 1 (Z.min (Z.min n_components (lenZ vt)) (Z.of_nat d)) in
      Ok {| p_mean := mean; p_components := firstn (Z.to_nat k) vt; p_impute := impute |}
  end.

(* one row of src/modssc/preprocess/steps/core/pca.py 69-79 *)
Definition pca_row (center : bool) (st : pca) (r : list cell) : list Q :=
  let x := fill (p_impute st) r in
  let x := if center then subtract x (p_mean st) else x in
  map (dot x) (p_components st).

Definition slice {A} (a b : nat) (l : list A) : list A := firstn (b - a) (skipn a l).
(* Z[a:b] = rows *)
Definition write_slice {A} (a b : nat) (rows : list A) (l : list A) : list A :=
  firstn a l ++ rows ++ skipn b l.

(* range(0, n, batch) *)
Fixpoint range_step (fuel start n batch : nat) : list nat :=
  match fuel with
  | O => []
  | S f => if Nat.ltb start n then start :: range_step f (start + batch) n batch else []
  end.
Definition batch_size : nat := Z.to_nat 8192.

(* src/modssc/preprocess/steps/core/pca.py 54-81; empty is the content of np.empty; an array of
   another width cannot be combined with the fitted arrays (ValueError) unless it has no row *)
Definition pca_transform (center : bool) (st : option pca) (features : option (array cell))
    (empty : list (list Q)) : result (list (list Q)) :=
  match st with
  | None => Err PreprocessError
  | Some st =>
      match features with
      | None => Err KeyError
      | Some X =>
          let n := length (body X) in
          if negb (Nat.eqb n 0) && negb (Nat.eqb (width X) (length (p_mean st))) then Err ValueError
          else Ok (fold_left
                     (fun Z start =>
                        let stop := Nat.min (start + batch_size) n in
                        write_slice start stop (map (pca_row center st) (slice start stop (body X))) Z)
                     (range_step n 0 n batch_size) empty)
      end
  end.
End Pca.

Section Projection.
(* rng.standard_normal((n, k)) and 1 / sqrt(k) *)
Variable normal : nat -> nat -> mat.
Variable root : Z -> Q.

(* src/modssc/preprocess/steps/core/random_projection.py 19-32 *)
Definition rp_fit (n_components : Z) (normalize : bool) (features : option (array Q)) : result mat :=
  match features with
  | None => Err KeyError
  | Some X =>
      if (n_components <=? 0)%Z then Err PreprocessError
      else
        let W := normal (width X) (Z.to_nat n_components) in
        Ok (if normalize then map (map (fun q => q / root n_components)) W else W)
  end.
(* src/modssc/preprocess/steps/core/random_projection.py 34-39; k is the width of the matrix *)
Definition rp_transform (W : option mat) (k : nat) (features : option (array Q)) : result mat :=
  match W with
  | None => Err PreprocessError
  | Some W =>
      match features with
      | None => Err KeyError
      | Some X =>
          if Nat.eqb (width X) (length W) then Ok (matmul (body X) W k) else Err ValueError
      end
  end.
End Projection.

Section Zca.
(* np.linalg.eigh: eigenvalues and the matrix whose columns are the eigenvectors; 1 / np.sqrt *)
Variable eigh : nat -> mat -> list Q * mat.
Variable isqrt : Q -> Q.

(* an array of images: the shape of one of them and their cells, flattened *)
Record images := { row_shape : list nat; flat : mat }.
Definition row_cells (X : images) : nat := fold_right Nat.mul 1%nat (row_shape X).

Record zca := { z_mean : list Q; z_W : mat; z_shape : list nat }.

(* src/modssc/preprocess/steps/vision/zca_whitening.py 22-51; arrays of less than two dimensions
   (a row shape without axis) are refused *)
Definition zca_fit (eps : Q) (max_features : Z) (raw : option images) (idx : list Z) : result zca :=
  match raw with
  | None => Err KeyError
  | Some X =>
      match row_shape X with
      | [] => Err PreprocessError
      | _ =>
          do chosen <- take_rows (flat X) idx;
          match chosen with
          | [] => Err PreprocessError
          | _ =>
              let d := row_cells X in
              if (max_features <? Z.of_nat d)%Z then Err PreprocessError
              else
                let mu := col_means d chosen in
                let xc := map (fun r => subtract r mu) chosen in
                let cov := tabulate d d (fun i j =>
                  Qsum (map (fun r => nth i r 0 * nth j r 0) xc) / inject_Z (Z.max 1 (lenZ chosen))) in
                let (s, u) := eigh d cov in
                let inv := map (fun q => isqrt ((if Qle_bool q 0 then 0 else q) + eps)) s in
                let W := tabulate d d (fun i j =>
                  Qsum (map (fun a => entry u i a * nth a inv 0 * entry u j a) (seq 0 d))) in
                Ok {| z_mean := mu; z_W := W; z_shape := row_shape X |}
          end
      end
  end.
(* src/modssc/preprocess/steps/vision/zca_whitening.py 53-66; an array without rows cannot be
   flattened with an inferred width (ValueError) *)
Definition zca_transform (st : option zca) (raw : option images) : result images :=
  match st with
  | None => Err PreprocessError
  | Some st =>
      match raw with
      | None => Err KeyError
      | Some X =>
          match row_shape X with
          | [] => Err PreprocessError
          | _ =>
              match flat X with
              | [] => Err ValueError
              | _ =>
                  let d := length (z_mean st) in
                  if negb (Nat.eqb (row_cells X) d) then Err PreprocessError
                  else Ok {| row_shape := z_shape st;
                             flat := map (fun r => map (fun j => Qsum (map (fun i => nth i (subtract r (z_mean st)) 0 * entry (z_W st) i j) (seq 0 d))) (seq 0 d)) (flat X) |}
              end
          end
      end
  end.
End Zca.
