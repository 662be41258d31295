(** * SpecMove: vocabulary for networks elsewhere in the address space *)
From Verif Require Import RustBase Addr Net Spec.

(** [n'] holds the addresses of [n] with the bits in [x] flipped. *)
Definition moved {F : family} (x : N) (n n' : net F) : Prop :=
  wf_net n' /\ subnet_mask n' = subnet_mask n /\
  forall a a' : addr F, valid a -> valid a' -> value a' = N.lxor (value a) x ->
    (member n a <-> member n' a').

(** The IPv6 address with the first 96 bits [pre] and then [a]. *)
Definition embedded_addr (pre : N) (a : addr V4) (a' : addr V6) : Prop :=
  valid a' /\ value a' = pre * 2 ^ 32 + value a.
(** The IPv6 network of these addresses, for the addresses of [n]. *)
Definition embedded (pre : N) (n : net V4) (n' : net V6) : Prop :=
  wf_net n' /\ embedded_addr pre (base_addr n) (base_addr n') /\
  embedded_addr (2 ^ 96 - 1) (subnet_mask n) (subnet_mask n').
(** The answer for the IPv6 network corresponds to the one for the IPv4 network. *)
Definition embedded_answer (pre : N) (x : res (option (addr V4))) (x' : res (option (addr V6))) : Prop :=
  match x, x' with
  | Ret None, Ret None => True
  | Ret (Some a), Ret (Some a') => embedded_addr pre a a'
  | _, _ => False
  end.
