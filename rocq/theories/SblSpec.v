(* What C153 says: which calls of fit succeed, which classifier they leave, and what the predictions are. *)
From Coq Require Import String QArith.
From Verif Require Import Prelude AdaptModel AdaptSpec SblModel.
Local Open Scope string_scope.
Local Open Scope Z_scope.
Local Open Scope list_scope.
Local Notation length := List.length.

(* labels of n examples: one whole number each *)
Definition whole (dt : numbers) : Prop := dt = Int64 \/ dt = OtherInt.
Definition array_labels (y : val) (n : nat) : Prop := exists i dt, y = Arr i [n] dt /\ whole dt.
Definition tensor_labels (y : val) (n : nat) : Prop := exists i dt dv, y = Ten i [n] dt dv /\ whole dt.

Section Baseline.
Context {P C : Type}.
Variable available : string -> bool.
Variable np_device : option device.
Variable as_long : nat -> nat.
Variable as_tensor : val -> device -> result val.
Variable create : spec P -> Z -> result C.
Variable train : C -> val -> val -> result C.

(* labelled and unlabeled data in arrays, a classifier that is not asked to be a torch one, a CPU run *)
Definition numpy_case (sp : spec P) (d : data) (dev : string) : Prop :=
  numpy_ready d /\ sp_backend sp <> "torch" /\ (dev = "cpu" \/ dev = "auto") /\ exists n, (0 < n)%nat /\ array_labels (d_yl d) n.
(* data in tensors the torch adapter takes (C148), a torch classifier; the unlabeled data have rows *)
Definition torch_case (sp : spec P) (d : data) (dev : string) : Prop :=
  torch_ready available d (Some dev) true /\ (exists d', to_torch_dataset available np_device as_long as_tensor (Some d) (Some dev) true = Ok d') /\
  sp_backend sp = "torch" /\ (d_xu d = Nothing \/ exists s, featured (d_xu d) s) /\ exists n, (0 < n)%nat /\ tensor_labels (d_yl d) n.
(* c is a fresh classifier of the specification and the seed, trained once on the labelled data *)
Definition trained_on (sp : spec P) (d : data) (seed : Z) (c : C) : Prop := exists c0, create sp seed = Ok c0 /\ train c0 (d_xl d) (d_yl d) = Ok c.
Definition fits (sp : spec P) (d0 : option data) (dev : string) (seed : Z) (c : C) (b : string) : Prop :=
  exists d, d0 = Some d /\ trained_on sp d seed c /\ ((b = "numpy" /\ numpy_case sp d dev) \/ (b = "torch" /\ torch_case sp d dev)).
(* the classifier that serves after a history: that of the last fit that succeeded *)
Definition serves (sp : spec P) (ops : list op) (c : C) (b : string) : Prop :=
  exists before d dev seed later, ops = before ++ Fit d dev seed :: later /\ fits sp d dev seed c b /\
    forall d' dev' seed' c' b', In (Fit d' dev' seed') later -> ~ fits sp d' dev' seed' c' b'.
Definition never (sp : spec P) (ops : list op) : Prop := forall d dev seed c b, In (Fit d dev seed) ops -> ~ fits sp d dev seed c b.
End Baseline.

(* arguments of predictions: arrays, or tensors and dicts with a tensor among their values *)
Definition takes (b : string) (X : val) : Prop := (b = "numpy" /\ exists s, array X s) \/ (b = "torch" /\ tensor_like X).
(* each row divided by its sum, unless that is zero *)
Definition sum (r : list Q) : Q := fold_right Qplus 0%Q r.
Definition scaled (r r' : list Q) : Prop :=
  length r' = length r /\ forall j, (j < length r)%nat -> (~ sum r == 0 -> nth j r' 0 * sum r == nth j r 0)%Q /\ (sum r == 0 -> nth j r' 0 == nth j r 0)%Q.
(* the row of a prediction: 1 at the last place the class has among the classes, 0 elsewhere *)
Definition marks (classes : list Z) (c : Z) (r : list Q) : Prop :=
  length r = length classes /\ exists i, nth_error classes i = Some c /\ (forall j, (i < j)%nat -> nth_error classes j <> Some c) /\
    forall j, (j < length classes)%nat -> nth j r 0%Q = if Nat.eq_dec j i then 1%Q else 0%Q.

Section Scores.
Context {C : Type}.
Variable scores_of proba_of : C -> option (val -> result scored).
Variable predict_of : C -> option (val -> result (list nat * list Z)).
Variable classes_of : C -> option (list Z).
(* the scores of a classifier: from predict_scores if it has that method, else from predict_proba *)
Definition asks (c : C) (f : val -> result scored) : Prop := scores_of c = Some f \/ (scores_of c = None /\ proba_of c = Some f).
Definition silent (c : C) : Prop := scores_of c = None /\ proba_of c = None.
(* the device of an argument: its own, or that of the tensor under x *)
Definition on (X : val) (dv : device) : Prop := (exists s, tensor X s dv) \/ exists items x s, X = Dict items /\ binds items "x" x /\ tensor x s dv.
(* the classes of a classifier without scores: its own list, else those among its predictions *)
Definition class_list (c : C) (labels classes : list Z) : Prop :=
  match classes_of c with Some cs => classes = cs | None => Sorted.StronglySorted Z.lt classes /\ forall k, In k classes <-> In k labels end.
Definition gives (c : C) (b : string) (X : val) (sh : list nat) (r : list (list Q)) (at_ : option device) : Prop :=
  (b = "numpy" /\ at_ = None /\ length sh = 2%nat /\ exists f, asks c f /\ (f X = Ok (SArr sh r) \/ f X = Ok (STen Cpu sh r))) \/
  (b = "numpy" /\ at_ = None /\ silent c /\ exists f n labels classes, predict_of c = Some f /\ f X = Ok ([n], labels) /\ class_list c labels classes /\
     sh = [n; length classes] /\ Forall2 (marks classes) labels r) \/
  (b = "torch" /\ length sh = 2%nat /\ exists f dv, asks c f /\ f X = Ok (STen dv sh r) /\ on X dv /\ at_ = Some dv).
End Scores.
