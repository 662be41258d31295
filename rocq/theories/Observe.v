(** * Observe: ways of running the model that some properties talk about *)
From Verif Require Import RustBase Addr Net Enumerate Spec.

(** Results of [k] successive calls of the address iterator's [next]. *)
Fixpoint results `{R : Rust} {F : family} (k : nat) (it : network_iter (addr F))
  : res (list (option (addr F))) :=
  match k with
  | O => Ret []
  | S k' => ' (o, it') <- iter_next it ;; rest <- results k' it' ;; Ret (o :: rest)
  end.
