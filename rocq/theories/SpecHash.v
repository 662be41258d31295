(** * SpecHash: what a hash function may rely on (C92) *)
From Verif Require Import RustBase Addr Hashing.
From Verif Require Export Spec.

(** Equal values are fed to the hasher alike, different ones differently; and none is fed
    like the beginning of another, so that values hashed one after the other are kept
    apart as well. *)
Record tells_apart {T W : Type} (feed : T -> list W) : Prop := {
  fed_alike : forall a b, feed a = feed b <-> a = b;
  no_prefix : forall a b r, feed a = feed b ++ r -> r = []
}.

(** The hash function of either family. *)
Definition hash_addr {F : family} : addr F -> list hash_write :=
  match F as F return addr F -> list hash_write with V4 => hash_v4 | V6 => hash_v6 end.
