(** * Demo: notation for concrete addresses and networks in examples *)
From Verif Require Export RustBase Addr Net Spec Env.

Definition ip4 (a b c d : N) : addr V4 := Ipv4 (((a * 256 + b) * 256 + c) * 256 + d).
Definition ip6 (a b c d e f g h : N) : addr V6 :=
  Ipv6 (((a * 65536 + b) * 65536 + c) * 65536 + d) (((e * 65536 + f) * 65536 + g) * 65536 + h).

(** Closes closed, decidable goals by computation. *)
Ltac ex1 := repeat match goal with
                   | |- _ /\ _ => split
                   | |- exists _, _ => eexists
                   | |- Forall _ [] => constructor
                   | |- Forall _ (_ :: _) => constructor
                   end.
Ltac ex := ex1; vm_compute; ex1; (reflexivity || congruence).
