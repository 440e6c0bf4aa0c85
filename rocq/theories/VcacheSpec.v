(* What C149 and C150 say. *)
From Coq Require Import String Ascii QArith.
From Verif Require Import Prelude VcacheModel.
Local Open Scope string_scope.
Local Open Scope Z_scope.
Local Open Scope list_scope.
Local Notation length := List.length.

(* a hash without collisions *)
Definition collision_free {A B} (h : A -> B) : Prop := forall a b, h a = h b -> a = b.
(* the same call without a cache *)
Definition uncached {X Y Spec} (c : call X Y Spec) : call X Y Spec := {| c_data := c_data _ _ _ c; c_spec := c_spec _ _ _ c; c_seed := c_seed _ _ _ c; c_cache := false; c_npz_first := c_npz_first _ _ _ c |}.
(* one graph and one X *)
Definition same_input {X Y} (a b : nodes X Y) : Prop :=
  g_nodes (n_graph _ _ a) = g_nodes (n_graph _ _ b) /\ g_edges (n_graph _ _ a) = g_edges (n_graph _ _ b) /\ g_weights (n_graph _ _ a) = g_weights (n_graph _ _ b) /\ n_x _ _ a = n_x _ _ b.
(* the fingerprint that identifies a graph: the one in its meta, the text None when that entry is None, else one made from the
   number of nodes and the first thousand edges *)
Inductive identifies (payload_fp : nat * list (Z * Z) -> string) : graph -> string -> Prop :=
| by_meta g s : g_fp g = Fp s -> s <> "" -> identifies payload_fp g s
| by_none g : g_fp g = NoneFp -> identifies payload_fp g "None"
| by_edges g e rest : (g_fp g = NoFp \/ g_fp g = Fp "") -> g_edges g = e ++ rest -> (length e = 1000%nat \/ (length e <= 1000)%nat /\ rest = []) -> identifies payload_fp g (payload_fp (g_nodes g, e)).

(* calls whose graphs have the same fingerprint are about the same graph and the same X *)
Definition one_input {X Y Spec} (payload_fp : nat * list (Z * Z) -> string) (cs : list (call X Y Spec)) : Prop :=
  forall c c' f, In c cs -> In c' cs -> identifies payload_fp (n_graph _ _ (c_data _ _ _ c)) f -> identifies payload_fp (n_graph _ _ (c_data _ _ _ c')) f -> same_input (c_data _ _ _ c) (c_data _ _ _ c').

(* ----- matrices ----- *)
(* shape and dtype tell the number of rows and the bytes of a row; their texts have no semicolon *)
Definition laid_out (rows_of : string -> nat) (width_of : string -> string -> nat) (a : dense) : Prop :=
  length (a_rows a) = rows_of (a_shape a) /\ (forall r, In r (a_rows a) -> length r = width_of (a_shape a) (a_dtype a)) /\
  ~ In ";"%char (text (a_shape a)) /\ ~ In ";"%char (text (a_dtype a)).
Definition bytes_of (a : dense) : nat := length (concat (a_rows a)).
(* the rows that are hashed: all of them, or the first and the last [max] *)
Definition agree_at_ends (max : nat) (a b : dense) : Prop :=
  a_shape a = a_shape b /\ a_dtype a = a_dtype b /\
  ((bytes_of a <= max)%nat -> a_rows a = a_rows b) /\
  ((max < bytes_of a)%nat -> forall i, (i < length (a_rows a))%nat -> (i < max \/ length (a_rows a) - max <= i)%nat -> nth_error (a_rows a) i = nth_error (a_rows b) i).
