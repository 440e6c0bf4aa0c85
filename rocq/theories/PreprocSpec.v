(* What is assumed of preprocessing steps, and what a sequence of requests sharing a cache is. *)
From Coq Require Import String.
From Verif Require Import Prelude PreprocModel.
Local Open Scope Z_scope.
Local Open Scope list_scope.

Section Contracts.
Context {V Pm R S DFp : Type}.
Variable sem : semantics V Pm R S.
(* the step looks at nothing but the named artifacts *)
Definition reads_only (names : list string) (s : step Pm) : Prop :=
  forall a b : dict V, (forall k, In k names -> get a k = get b k) ->
    (forall o idx r, fit sem (r_id s) (r_params s) o a idx r = fit sem (r_id s) (r_params s) o b idx r) /\
    (forall o r, transform sem (r_id s) (r_params s) o a r = transform sem (r_id s) (r_params s) o b r).
(* its output is a dictionary (no key twice) of artifacts it declares *)
Definition writes_declared (s : step Pm) : Prop :=
  forall o d r x r', transform sem (r_id s) (r_params s) o d r = Ok (x, r') ->
    NoDup (map fst x) /\ forall k, In k (map fst x) -> In k (sp_produces (r_spec s)).
(* transforming does not use the random generator (fitting may) *)
Definition quiet (s : step Pm) : Prop :=
  forall o d r r', match transform sem (r_id s) (r_params s) o d r, transform sem (r_id s) (r_params s) o d r' with
                   | Ok (x, _), Ok (y, _) => x = y
                   | Err e, Err e' => e = e'
                   | _, _ => False
                   end.
(* every step of a plan reads only what it declares (or the pipeline knows it to read) and writes only what it declares *)
Definition good_steps (steps : list (step Pm)) : Prop :=
  forall s, In s steps -> reads_only (sp_consumes (r_spec s) ++ implicit_consumes (r_id s)) s /\ writes_declared s.
(* a step whose key can stand for its output *)
Definition settled (s : step Pm) : Prop := reads_only (sp_consumes (r_spec s)) s /\ writes_declared s /\ quiet s.
End Contracts.
(* a step is meant for data of this modality: its own restriction, else the catalogue's *)
Definition modality_ok {Pm} (modality : string) (c : config Pm) (sp : spec) : Prop :=
  let allowed := match c_modalities c with [] => sp_modalities sp | m => m end in
  allowed = [] \/ modality = ""%string \/ In modality allowed.

(* one call of preprocess; the dataset is the one its fingerprint stands for *)
Record request (Pm DFp : Type) := {
  q_data : DFp; q_steps : list (step Pm); q_output : string; q_seed : Z; q_fit : option (list Z)
}.
Arguments q_data {Pm DFp}. Arguments q_steps {Pm DFp}. Arguments q_output {Pm DFp}. Arguments q_seed {Pm DFp}. Arguments q_fit {Pm DFp}.

Section Requests.
Context {V Pm R S DFp : Type}.
Variable sem : semantics V Pm R S.
Variable key_eqb : key Pm DFp -> key Pm DFp -> bool.
Variable saved : dict V -> dict V.
Variable data_of : DFp -> dataset V.
Definition uncached (q : request Pm DFp) : result (out_split V * option (out_split V)) :=
  preprocess sem (q_data q) (data_of (q_data q)) (q_steps q) (q_output q) (q_seed q) (q_fit q) false.
(* the results of a sequence of calls that share one cache *)
Fixpoint session (c : cache V Pm DFp) (l : list (request Pm DFp)) : list (result (out_split V * option (out_split V))) :=
  match l with
  | [] => []
  | q :: r => let (c1, res) := cached_preprocess sem key_eqb saved c (q_data q) (data_of (q_data q)) (q_steps q) (q_output q) (q_seed q) (q_fit q) in
              res :: session c1 r
  end.
End Requests.
(* values that are saved come back unchanged *)
Definition saves_faithfully {V} (saved : dict V -> dict V) : Prop := forall o k v, get (saved o) k = Some v -> get o k = Some v.
