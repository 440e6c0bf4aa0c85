(* Vocabulary for the graph cache. *)
From Coq Require Import String.
From Verif Require Import Prelude FsModel GraphOpsModel GraphCacheModel.
Local Open Scope Z_scope.
Local Open Scope list_scope.

(* what GraphArtifact accepts: node ids exist, one weight per edge *)
Definition valid_graph {W M} (g : graph W M) : Prop :=
  (forall i j, In (i, j) (g_edges g) -> 0 <= i < g_n g /\ 0 <= j < g_n g) /\
  match g_w g with Some w => lenZ w = lenZ (g_edges g) | None => True end.

(* listing the entry directory shows at least the entry's own files; the order is arbitrary *)
Definition listing_ok {W M U} (ls : fs (gfile W M U) -> list string) (d : path) : Prop :=
  forall f nm, In nm ["manifest.json"; "edge_index.npy"; "edge_weight.npy"]%string ->
    f (d ++ [nm]) <> None -> In nm (ls f).

Definition without_weights {W M} (g : graph W M) : graph W M :=
  {| g_n := g_n g; g_edges := g_edges g; g_w := None; g_directed := g_directed g; g_meta := g_meta g |}.
