(** * SpecFiles: what files may do (C89) *)
From Verif Require Export Sink.

(** A file that, if open for writing at all, takes something whenever it is asked. *)
Definition obliging (k : kind) : Prop := writable k = true -> forall i, exists n, answers k i = Takes (S n).
(** The [i]th request fails. *)
Definition fails_at (k : kind) (i : nat) : Prop := writable k = true /\ (answers k i = Fails \/ answers k i = Takes 0).
(** What ends up in a file that is given [s]. *)
Definition received (k : kind) (s : str) : str := if writable k then s else [].

(** Files that are not open for writing, that take [n] bytes at a time, that fail
    once. *)
Definition unwritable : kind := {| writable := false; answers := fun _ => Fails |}.
Definition sips (n : nat) : kind := {| writable := true; answers := fun _ => Takes n |}.
Definition hiccup (i n : nat) : kind := {| writable := true; answers := fun j => if Nat.eqb i j then Fails else Takes n |}.
