(* Vocabulary for C164: Hugging Face references and splits. *)
From Coq Require Import String Ascii.
From Verif Require Import Prelude PyValue RegModel OmlModel OmlSpec HfModel.
Local Open Scope string_scope.
Local Open Scope list_scope.
Local Notation length := List.length.

(* ref says name, or name/config, with white space anywhere around the two *)
Definition names (ref name : text) (config : option text) : Prop :=
  clean name /\ ~ In "/"%char name /\
  match config with
  | None => exists b b', blank b /\ blank b' /\ (ref = b ++ name ++ b' \/ exists b2 b3, blank b2 /\ blank b3 /\ ref = b ++ name ++ b' ++ "/"%char :: b2 ++ b3)
  | Some c => c <> [] /\ clean c /\ exists b1 b2 b3 b4, blank b1 /\ blank b2 /\ blank b3 /\ blank b4 /\ ref = b1 ++ name ++ b2 ++ "/"%char :: b3 ++ c ++ b4
  end.
(* the split with a name, as columns; a data set without splits is its own training split *)
Definition has_split {A} (ds : source) (n : string) (r : @rows A) : Prop :=
  match ds with Splits l => exists a b, l = a ++ (n, r) :: b /\ ~ In n (map fst a) | Single r' => r = r' /\ n = "train" end.
Definition has_column {B} (l : list (string * B)) (k : string) (v : B) : Prop := exists a b, l = a ++ (k, v) :: b /\ ~ In k (map fst a).
Definition holds {A} (r : @rows A) (tcol lcol : string) (x : list A) (y : list Z) : Prop := has_column (r_samples r) tcol x /\ has_column (r_labels r) lcol y.
(* the split used for testing: the preferred one of test and validation, else the other one, else none *)
Definition test_split {A} (ds : source) (prefer_test : bool) (r : option (@rows A)) : Prop :=
  let a := if prefer_test then "test" else "validation" in let b := if prefer_test then "validation" else "test" in
  match r with
  | Some t => has_split ds a t \/ (~ (exists t', has_split ds a t') /\ has_split ds b t)
  | None => ~ (exists t', has_split ds a t') /\ ~ (exists t', has_split ds b t')
  end.
