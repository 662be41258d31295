(** * Env: concrete environments ([Rust] instances), used in examples and to
    show that the class is inhabited. Insertion sort; insertion-ordered hash
    tables; overflow checks on (debug build) or off (release build). *)
From Verif Require Import RustBase.

Section Sort.
  Context {T : Type} (cmp : T -> T -> comparison).

  Lemma insert_by_perm x l : Permutation (insert_by cmp x l) (x :: l).
  Proof.
    induction l as [|y l IH]; cbn; [reflexivity|].
    destruct (cmp x y); try reflexivity.
    rewrite IH. apply perm_swap.
  Qed.

  Lemma isort_by_perm l : Permutation (isort_by cmp l) l.
  Proof.
    induction l as [|x l IH]; cbn; [reflexivity|].
    rewrite insert_by_perm. now rewrite IH.
  Qed.

  Hypothesis antisym : forall x y, cmp y x = CompOpp (cmp x y).

  Lemma insert_by_sorted x l :
    Sorted (fun x y => cmp x y <> Gt) l ->
    Sorted (fun x y => cmp x y <> Gt) (insert_by cmp x l).
  Proof.
    induction 1 as [|y l Hs IH Hr]; cbn; [repeat constructor|].
    destruct (cmp x y) eqn:E.
    1,2: constructor; [constructor; assumption | constructor; congruence].
    constructor; [assumption|].
    assert (Hy : cmp y x <> Gt) by (rewrite antisym, E; discriminate).
    destruct l as [|z l]; cbn; [repeat constructor; assumption|].
    inversion Hr; subst.
    destruct (cmp x z); constructor; assumption.
  Qed.

  Lemma isort_by_sorted l : Sorted (fun x y => cmp x y <> Gt) (isort_by cmp l).
  Proof.
    induction l as [|x l IH]; cbn; [constructor|].
    now apply insert_by_sorted.
  Qed.
End Sort.

Definition mk_env (oc : bool) (bits : N) (wide : 16 <= bits) : Rust := {|
  overflow_checks := oc;
  usize_bits := bits;
  usize_wide := wide;
  sort_by := @isort_by;
  hash_iter := fun _ l => l;
  sort_by_perm := fun T cmp l => isort_by_perm cmp l;
  sort_by_sorted := fun T cmp l antisym _ => isort_by_sorted cmp antisym l;
  hash_iter_perm := fun T l => Permutation_refl l
|}.

Lemma wide_64 : 16 <= 64. Proof. discriminate. Qed.
Lemma wide_32 : 16 <= 32. Proof. discriminate. Qed.
Definition debug_env : Rust := mk_env true 64 wide_64.
Definition release_env : Rust := mk_env false 64 wide_64.
(** A release build for a 32-bit target. *)
Definition narrow_env : Rust := mk_env false 32 wide_32.

(** Another environment: hash tables iterate in reverse order and the sort sees
    its input reversed, so ties come out the other way round. *)
Definition reverse_env : Rust.
  refine {|
    overflow_checks := true;
    usize_bits := 64;
    usize_wide := wide_64;
    sort_by := fun T cmp l => isort_by cmp (rev l);
    hash_iter := fun _ l => rev l
  |}.
  - intros. rewrite isort_by_perm. symmetry. apply Permutation_rev.
  - intros. now apply isort_by_sorted.
  - intros. symmetry. apply Permutation_rev.
Defined.
