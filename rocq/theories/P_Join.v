(** * Properties of minimize for networks with any masks: C78 *)
From Verif Require Import RustBase Addr Cidr BitManip Net Minimize Spec SpecJoin Demo Pf_Join.

Definition ex_any : list (net V4) :=
  map (fun '(k, m) => @new_with_mask (addr V4) ipv4_ops (ip4 10 0 0 k) (ip4 255 0 255 m))
    [(3, 255); (2, 255); (1, 253); (1, 255); (5, 5); (0, 255)].

(** ** C78: exactly what the result is *)
Theorem C78_exact : forall (R : Rust) (F : family) (l r : list (net F)),
  Forall wf_net l ->
  (minimize_subnets l = Ret r <-> exists o, outermost l o /\ joined o r).
Proof. exact c78_exact. Qed.
Print Assumptions C78_exact.
Example C78_exact_ex :
  @minimize_subnets debug_env (addr V4) ipv4_ops ex_any =
    Ret (map (fun '(k, m) => @new_with_mask (addr V4) ipv4_ops (ip4 10 0 0 k) (ip4 255 0 255 m))
           [(0, 255); (1, 253); (2, 255); (5, 5)]).
Proof. ex. Qed.

(** No halves are left. *)
Theorem C78_no_halves : forall (R : Rust) (F : family) (l r : list (net F)) (e n n' : net F),
  Forall wf_net l -> minimize_subnets l = Ret r -> In n r -> In n' r -> ~ halves e n n'.
Proof. exact c78_no_halves. Qed.
Print Assumptions C78_no_halves.
Example C78_no_halves_ex :
  let net k m := @new_with_mask (addr V4) ipv4_ops (ip4 10 0 0 k) (ip4 255 0 255 m) in
  @minimize_subnets debug_env (addr V4) ipv4_ops [net 3 255; net 1 255; net 2 255; net 0 255; net 4 4] =
  Ret [net 0 252; net 4 4].
Proof. ex. Qed.

(** A network of the result consists of given ones, and each of these became it by
    losing the bits of its mask up to some bit. *)
Theorem C78_parts : forall (R : Rust) (F : family) (l r : list (net F)) (e : net F) (a : addr F),
  Forall wf_net l -> minimize_subnets l = Ret r -> In e r -> valid a -> member e a ->
  exists n k, In n l /\ member n a /\ includes e n /\
    forall i, N.testbit (value (subnet_mask e)) i = N.testbit (value (subnet_mask n)) i && (k <=? i).
Proof. exact c78_parts. Qed.
Print Assumptions C78_parts.
Example C78_parts_ex :
  let net k m := @new_with_mask (addr V4) ipv4_ops (ip4 10 0 0 k) (ip4 255 0 255 m) in
  @minimize_subnets debug_env (addr V4) ipv4_ops [net 1 0xd5; net 0 0xd5; net 4 0xd4] = Ret [net 0 0xd0] /\
  0xd0 = N.land 0xd5 (N.shiftl 0xff 3) /\ 0xd0 = N.land 0xd4 (N.shiftl 0xff 3).
Proof. ex. Qed.

(** A network of the result is inside no given one but itself. *)
Theorem C78_not_inside : forall (R : Rust) (F : family) (l r : list (net F)) (e n : net F),
  Forall wf_net l -> minimize_subnets l = Ret r -> In e r -> In n l -> includes n e -> n = e.
Proof. exact c78_not_inside. Qed.
Print Assumptions C78_not_inside.
Example C78_not_inside_ex :
  let net k m := @new_with_mask (addr V4) ipv4_ops (ip4 10 0 0 k) (ip4 255 0 255 m) in
  @minimize_subnets debug_env (addr V4) ipv4_ops [net 5 0xf5; net 4 0xd4; net 0 0x02] = Ret [net 0 0x02; net 4 0xd4].
Proof. ex. Qed.
