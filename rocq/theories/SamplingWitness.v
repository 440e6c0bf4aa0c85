(* Concrete generators and a concrete stable argsort, used to show that the contracts of
   SamplingModel.v are satisfiable and to compute examples and refutation witnesses. *)
From Verif Require Import Prelude ListFacts FloatModel SamplingModel.

(* a generator that leaves the order unchanged *)
Definition id_rng : Rng.
Proof.
  refine {| rng_state := unit;
            permutation := fun s l => (l, s);
            choice := fun s l k => (firstn k l, s) |}.
  - intros s l. cbn. reflexivity.
  - intros s l k Hk. cbn [fst]. split; [rewrite firstn_length; lia|].
    exists (skipn k l). rewrite firstn_skipn. reflexivity.
Defined.

(* a generator with state: reverses on odd states *)
Definition flip_rng : Rng.
Proof.
  refine {| rng_state := bool;
            permutation := fun s l => (if s then rev l else l, negb s);
            choice := fun s l k => (if s then firstn k (rev l) else firstn k l, negb s) |}.
  - intros [|] l; cbn; [symmetry; apply Permutation_rev|reflexivity].
  - intros [|] l k Hk; cbn [fst].
    + split; [rewrite firstn_length, rev_length; lia|].
      exists (skipn k (rev l)). rewrite firstn_skipn. symmetry; apply Permutation_rev.
    + split; [rewrite firstn_length; lia|].
      exists (skipn k l). rewrite firstn_skipn. reflexivity.
Defined.

(* np.argsort(keys, kind="stable") by insertion *)
Fixpoint insert_pos (keys : list Z) (i : nat) (l : list nat) : list nat :=
  match l with
  | [] => [i]
  | j :: r => if nth i keys 0 <=? nth j keys 0 then i :: l else j :: insert_pos keys i r
  end.
Definition stable_argsort : argsort :=
  fun keys => fold_right (insert_pos keys) [] (seq 0 (length keys)).

Lemma insert_pos_perm keys i l : Permutation (insert_pos keys i l) (i :: l).
Proof.
  induction l as [|j r IH]; cbn; [reflexivity|].
  destruct (_ <=? _); [reflexivity|]. rewrite IH. apply perm_swap.
Qed.

Lemma stable_argsort_valid : argsort_valid stable_argsort.
Proof.
  intros keys. unfold stable_argsort. generalize (seq 0 (length keys)) as l.
  induction l as [|i r IH]; cbn; [constructor|].
  rewrite insert_pos_perm, IH. reflexivity.
Qed.

Lemma insert_pos_sorted keys i l :
  Sorted (fun a b => nth a keys 0 <= nth b keys 0) l ->
  Sorted (fun a b => nth a keys 0 <= nth b keys 0) (insert_pos keys i l).
Proof.
  induction 1 as [|j r Hs IH Hr]; cbn; [repeat constructor|].
  destruct (Z.leb_spec (nth i keys 0) (nth j keys 0)) as [Hle|Hgt].
  - constructor; [constructor; assumption|]. constructor; exact Hle.
  - constructor; [exact IH|].
    destruct r as [|m r]; cbn; [constructor; lia|].
    destruct (nth i keys 0 <=? nth m keys 0); constructor; [lia|].
    inversion Hr; assumption.
Qed.

Lemma stable_argsort_sorted : argsort_sorted stable_argsort.
Proof.
  intros keys. unfold stable_argsort. generalize (seq 0 (length keys)) as l.
  induction l as [|i r IH]; cbn; [constructor|]. apply insert_pos_sorted, IH.
Qed.

(* an unstable order: ties in reverse position order *)
Definition unstable_argsort : argsort :=
  fun keys => fold_right (insert_pos keys) [] (rev (seq 0 (length keys))).
Lemma unstable_argsort_valid : argsort_valid unstable_argsort.
Proof.
  intros keys. unfold unstable_argsort.
  transitivity (rev (seq 0 (length keys))); [|symmetry; apply Permutation_rev].
  generalize (rev (seq 0 (length keys))) as l.
  induction l as [|i r IH]; cbn; [constructor|].
  rewrite insert_pos_perm, IH. reflexivity.
Qed.
