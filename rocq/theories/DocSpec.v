(* Vocabulary for C178: bricks that start, and their status. *)
From Coq Require Import String Ascii.
From Verif Require Import Prelude DocModel.
Local Open Scope string_scope.
Local Open Scope list_scope.
Local Notation length := List.length.

Definition begins (p s : string) : Prop := exists r, s = (p ++ r)%string.
Definition contains (p s : string) : Prop := exists a b, s = (a ++ p ++ b)%string.
(* the extra that is advised: that of the module, else that of the brick *)
Inductive advised (name missing : string) : option string -> Prop :=
| advised_module h : In (missing, h) [("datasets", "datasets"); ("sklearn", "sklearn"); ("torch", "graph"); ("torch_geometric", "graph"); ("tensorflow", "tfds"); ("tensorflow_datasets", "tfds")] -> advised name missing (Some h)
| advised_brick h : ~ In missing ["datasets"; "sklearn"; "torch"; "torch_geometric"; "tensorflow"; "tensorflow_datasets"] -> In (name, h) [("datasets", "datasets"); ("graph", "graph"); ("inductive", "inductive-torch or inductive-tf"); ("supervised", "sklearn or supervised-torch")] -> advised name missing (Some h)
| advised_none : ~ In missing ["datasets"; "sklearn"; "torch"; "torch_geometric"; "tensorflow"; "tensorflow_datasets"] -> ~ In name ["datasets"; "graph"; "inductive"; "supervised"] -> advised name missing None.
(* a brick that is there, or that lacks a module from outside *)
Inductive settled (load : string -> outcome) : string * string -> status -> Prop :=
| settled_here m n : load m = Module true -> settled load (m, n) {| s_module := m; s_name := n; s_available := true; s_error := None; s_missing := None; s_hint := None |}
| settled_away m n who msg x h : load m = ImportFails who msg -> missing_module who msg = Some x -> x <> m -> ~ begins "modssc" x -> advised n x h ->
    settled load (m, n) {| s_module := m; s_name := n; s_available := false; s_error := Some msg; s_missing := Some x; s_hint := h |}.
Definition plain_end (x : list ascii) : Prop := forall c r, (x = c :: r \/ x = r ++ [c]) -> c <> "'"%char /\ c <> """"%char.
