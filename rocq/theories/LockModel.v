(* Model of src/modssc/data_loader/cache.py:89-106 cache_lock run by several processes.

   Every process calls cache_lock some number of times; a step of a process is one file-system call
   of the context manager.  The scheduler chooses which process steps. *)
From Verif Require Import Prelude.
Local Open Scope list_scope.

Inductive pc :=
| Outside        (* not in the with statement *)
| Inside         (* os.open succeeded (line 98): the body runs *)
| Leaving        (* the body ended: in the finally clause, before unlink (line 106) *)
| Refused.       (* os.open raised FileExistsError: in the finally clause, before unlink *)

Record lstate := { lock_file : bool; pcs : nat -> pc }.

Definition set_pc (f : nat -> pc) (p : nat) (v : pc) : nat -> pc :=
  fun q => if Nat.eqb q p then v else f q.

(* one call: O_EXCL creation, end of the body, unlink(missing_ok=True) *)
Definition lstep (s : lstate) (p : nat) : lstate :=
  match pcs s p with
  | Outside =>
      if lock_file s
      then {| lock_file := true; pcs := set_pc (pcs s) p Refused |}
      else {| lock_file := true; pcs := set_pc (pcs s) p Inside |}
  | Inside => {| lock_file := lock_file s; pcs := set_pc (pcs s) p Leaving |}
  | Leaving | Refused => {| lock_file := false; pcs := set_pc (pcs s) p Outside |}
  end.

Definition lrun (sched : list nat) (s : lstate) : lstate := fold_left lstep sched s.
Definition lstart : lstate := {| lock_file := false; pcs := fun _ => Outside |}.
