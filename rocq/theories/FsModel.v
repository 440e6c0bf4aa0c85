(* A small file system with crashes, shared by the storage models.

   A program is a list of atomic steps.  Writing a file is two steps: the file first exists with torn
   contents, then with the complete ones; os.replace is one step (pathlib Path.replace); creating a
   directory is one step.  A crash leaves the state reached after some prefix of the steps.
   Not modelled: reordering of unsynced writes by the kernel, disk-full errors, permissions. *)
From Coq Require Import String.
From Verif Require Import Prelude.
Local Open Scope list_scope.

Definition path := list string.

Inductive data (V : Type) := Torn | Whole (v : V).
Arguments Torn {V}. Arguments Whole {V} v.
Inductive node (V : Type) := NDir | NFile (d : data V).
Arguments NDir {V}. Arguments NFile {V} d.

Definition fs (V : Type) := path -> option (node V).

Definition path_eqb (a b : path) : bool := if list_eq_dec string_dec a b then true else false.

Definition set {V} (f : fs V) (p : path) (n : option (node V)) : fs V :=
  fun q => if path_eqb q p then n else f q.

Inductive step (V : Type) :=
| SMkdir (p : path)
| STorn (p : path)
| SWrite (p : path) (v : V)
| SRename (src dst : path)
| SUnlink (p : path).
Arguments SMkdir {V} p. Arguments STorn {V} p. Arguments SWrite {V} p v.
Arguments SRename {V} src dst. Arguments SUnlink {V} p.

Definition exec {V} (f : fs V) (s : step V) : fs V :=
  match s with
  | SMkdir p => match f p with None => set f p (Some NDir) | Some _ => f end
  | STorn p => set f p (Some (NFile Torn))
  | SWrite p v => set f p (Some (NFile (Whole v)))
  | SRename a b => set (set f b (f a)) a None
  | SUnlink p => set f p None
  end.

Definition run {V} (steps : list (step V)) (f : fs V) : fs V := fold_left exec steps f.
(* the state after a crash at point k; k >= length steps is normal termination *)
Definition crash {V} (k : nat) (steps : list (step V)) (f : fs V) : fs V := run (firstn k steps) f.

(* open(p).read() followed by parsing: a torn file does not parse *)
Definition read_file {V} (torn_error : exn) (f : fs V) (p : path) : result V :=
  match f p with
  | Some (NFile (Whole v)) => Ok v
  | Some (NFile Torn) => Err torn_error
  | _ => Err FileNotFoundError
  end.

Definition exists_path {V} (f : fs V) (p : path) : bool :=
  match f p with Some _ => true | None => false end.

(* utils/io.py:21-30 atomic_write_text: a fresh temporary file in the same directory, then replace *)
Definition atomic_write {V} (tmp p : path) (v : V) : list (step V) :=
  [STorn tmp; SWrite tmp v; SRename tmp p].

(* Programs over the file system: a program returns a value or raises, and the steps it performed. *)
Definition prog (V A : Type) := fs V -> result A * list (step V).

Definition pret {V A} (a : A) : prog V A := fun _ => (Ok a, []).
Definition praise {V A} (e : exn) : prog V A := fun _ => (Err e, []).
Definition plift {V A} (r : result A) : prog V A := fun _ => (r, []).
Definition psteps {V} (l : list (step V)) : prog V unit := fun _ => (Ok tt, l).
Definition pbind {V A B} (m : prog V A) (k : A -> prog V B) : prog V B :=
  fun f => match m f with
           | (Ok a, s1) => let '(r, s2) := k a (run s1 f) in (r, s1 ++ s2)
           | (Err e, s1) => (Err e, s1)
           end.
(* read the current state *)
Definition pread {V A} (k : fs V -> A) : prog V A := fun f => (Ok (k f), []).
(* try: m finally: cleanup *)
Definition pfinally {V A} (m : prog V A) (cleanup : list (step V)) : prog V A :=
  fun f => let '(r, s) := m f in (r, s ++ cleanup).
(* the state after normal or exceptional termination *)
Definition after {V A} (m : prog V A) (f : fs V) : fs V := run (snd (m f)) f.
Definition value {V A} (m : prog V A) (f : fs V) : result A := fst (m f).

Notation "'run!' x <- m ; k" := (pbind m (fun x => k))
  (at level 200, x name, m at level 100, k at level 200).
