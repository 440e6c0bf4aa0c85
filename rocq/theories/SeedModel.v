(* Model of the seed derivations:
   src/modssc/sampling/fingerprint.py:14-19 derive_seed (bench/utils/hashing.py:23-26 is the same),
   src/modssc/preprocess/fingerprint.py:24-31 derive_seed,
   src/modssc/data_augmentation/utils.py:29-34 seed_to_rng_seed,
   src/modssc/utils/seed.py:4-12 mix_seed32.
   The cryptographic hashes are arbitrary functions from byte strings to digests. *)
From Coq Require Import String Decimal DecimalString DecimalZ.
From Verif Require Import Prelude.
Local Open Scope string_scope.

(* str(int) *)
Definition dec (z : Z) : string := NilEmpty.string_of_int (Z.to_int z).

(* f"{int(master_seed)}:{label}" *)
Definition sampling_payload (seed : Z) (label : string) : string := dec seed ++ ":" ++ label.
(* f"{master_seed}|{step_index}|{step_id}" *)
Definition preprocess_payload (seed index : Z) (step_id : string) : string :=
  dec seed ++ "|" ++ dec index ++ "|" ++ step_id.
(* f"{int(seed)}|{int(epoch)}|{int(sample_id)}" *)
Definition augment_payload (seed epoch sample_id : Z) : string :=
  dec seed ++ "|" ++ dec epoch ++ "|" ++ dec sample_id.

(* int.from_bytes(b, "big") and "little" on a list of bytes *)
Definition from_bytes_big (b : list Z) : Z := fold_left (fun acc x => acc * 256 + x) b 0.
Definition from_bytes_little (b : list Z) : Z := fold_right (fun x acc => x + 256 * acc) 0 b.

Definition derive_seed (hash : string -> list Z) (seed : Z) (label : string) : Z :=
  from_bytes_big (firstn 4 (hash (sampling_payload seed label))).
Definition derive_step_seed (hash : string -> list Z) (seed index : Z) (step_id : string) : Z :=
  from_bytes_big (firstn 4 (hash (preprocess_payload seed index step_id))).
Definition seed_to_rng_seed (hash : string -> list Z) (seed epoch sample_id : Z) : Z :=
  from_bytes_little (firstn 8 (hash (augment_payload seed epoch sample_id))) mod 2 ^ 32.

Definition mask64 (x : Z) : Z := Z.land x 18446744073709551615.
(* 0x9E3779B97F4A7C15, 0xBF58476D1CE4E5B9, 0x94D049BB133111EB *)
Definition mix_seed32 (seed salt : Z) : Z :=
  let x := mask64 (seed + 11400714819323198485 + salt) in
  let x := Z.lxor x (mask64 (Z.shiftr x 30)) in
  let x := mask64 (x * 13787848793156543929) in
  let x := Z.lxor x (mask64 (Z.shiftr x 27)) in
  let x := mask64 (x * 10723151780598845931) in
  let x := Z.lxor x (mask64 (Z.shiftr x 31)) in
  Z.land x 4294967295.
