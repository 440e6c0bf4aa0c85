(* What the registries and dataset URIs are supposed to do. *)
From Coq Require Import String Ascii Sorted.
From Verif Require Import Prelude RegModel.
Local Open Scope string_scope.
Local Open Scope list_scope.

(* ---- strings *)
Fixpoint colons (s : string) : nat := match s with EmptyString => O | String a r => ((if Ascii.eqb a ":" then 1 else 0) + colons r)%nat end.
Definition alphabetical (l : list string) : Prop := StronglySorted (fun a b => String.ltb a b = true) l.

(* ---- methods *)
(* the built-in calls are acceptable: ids that are not empty and not repeated, paths with a colon, known states *)
Definition known_status (s : string) : Prop := s = "implemented" \/ s = "planned".
Definition acceptable (calls : list (string * string * string)) : Prop :=
  NoDup (map (fun c => fst (fst c)) calls) /\ forall id path status, In (id, path, status) calls -> id <> "" /\ (1 <= colons path)%nat /\ known_status status.
Definition is_registered (reg : methods) (id path status : string) : Prop := dget reg id = Some {| mr_path := path; mr_status := status |}.
(* a built-in id is taken by another class *)
Definition taken (calls : list (string * string * string)) (reg : methods) : Prop :=
  exists id path status path' status', In (id, path, status) calls /\ is_registered reg id path' status' /\ path' <> path.

(* ---- classifiers *)
(* c' is c, perhaps with more backends *)
Definition extends (c c' : classifier) : Prop :=
  cl_description c' = cl_description c /\ cl_preferred c' = cl_preferred c /\ forall n b, dget (cl_backends c) n = Some b -> dget (cl_backends c') n = Some b.
(* everything shipped is there *)
Definition holds_entry (reg : classifiers) (e : entry) : Prop :=
  exists c, dget reg (en_key e) = Some c /\ cl_description c = en_description e /\ cl_preferred c = en_preferred e /\
    forall n b, In (n, b) (en_backends e) -> dget (cl_backends c) n = Some b.

(* a shipped entry asks for nothing that is already taken *)
Definition free_for (reg : classifiers) (e : entry) : Prop :=
  forall c, dget reg (en_key e) = Some c -> cl_description c = en_description e /\ cl_preferred c = en_preferred e /\
    forall n b, In (n, b) (en_backends e) -> dget (cl_backends c) n = None.
Definition well_formed (es : list entry) : Prop := NoDup (map en_key es) /\ forall e, In e es -> NoDup (map fst (en_backends e)).

(* ---- augmentations *)
Definition fits (class_modality m : string) : Prop := class_modality = m \/ class_modality = "any".
(* the catalogue and the modules tell the same story *)
Definition well_made (catalogue : list (string * (string * string * string))) (modules : list (string * list decorated)) : Prop :=
  NoDup (map fst catalogue) /\
  (forall id m c mo, In (id, (m, c, mo)) catalogue -> exists ds, dget modules m = Some ds /\ In {| de_id := id; de_class := c; de_op_id := id; de_modality := mo |} ds) /\
  (forall m ds, dget modules m = Some ds -> NoDup (map de_id ds) /\ NoDup (map de_class ds) /\
     forall d, In d ds -> In (de_id d, (m, de_class d, de_modality d)) catalogue).
(* the user keeps away from the ids of the catalogue *)
Definition keeps_away (catalogue : list (string * (string * string * string))) (cs : list op_call) : Prop :=
  forall id c, In (AddOp id c) cs -> ~ In id (map fst catalogue).
Definition is_get (c : op_call) : bool := match c with GetOp _ => true | _ => false end.

(* ---- URIs *)
(* t is s without the white space around it *)
Definition stripped (space : ascii -> bool) (s t : string) : Prop :=
  exists l r, s = (string_of_list_ascii l ++ t ++ string_of_list_ascii r)%string /\ (forall a, In a l \/ In a r -> space a = true) /\
    (forall a u, t = String a u -> space a = false) /\ (forall a u, t = (u ++ String a "")%string -> space a = false).
