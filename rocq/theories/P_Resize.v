(** * Properties of resize (resize_network): C52 - C54 *)
From Verif Require Import RustBase Addr Cidr BitManip Net Resize Spec Demo Pf_Resize.

(** ** C52: more host bits: one network *)
Theorem C52_supernet : forall (R : Rust) (F : family) (n : net F) (m : addr F),
  wf_net n -> valid m -> host_bits (subnet_mask n) < host_bits m ->
  let pos := position (subnet_mask n) (base_addr n) in
  exists n', resize_network n m = Ret ([n'], Lt) /\ wf_net n' /\ subnet_mask n' = m /\
    position m (base_addr n') = pos - pos mod 2 ^ host_bits m.
Proof. exact c52_supernet. Qed.
Print Assumptions C52_supernet.
Example C52_supernet_ex :
  @resize_network debug_env (addr V4) ipv4_ops (new_with_mask (ip4 192 0 2 0) (ip4 255 255 255 0)) (ip4 255 0 255 0) =
    Ret ([@new_with_mask (addr V4) ipv4_ops (ip4 192 0 0 0) (ip4 255 0 255 0)], Lt).
Proof. ex. Qed.

Theorem C52_supernet_cidr : forall (R : Rust) (F : family) (n : net F) (m : addr F) (p q : N),
  is_cidr n p -> valid m -> contiguous F (value m) q -> q < p ->
  exists n', resize_network n m = Ret ([n'], Lt) /\ is_cidr n' q /\ includes n' n.
Proof. exact c52_supernet_cidr. Qed.
Print Assumptions C52_supernet_cidr.
Example C52_supernet_cidr_ex :
  @resize_network debug_env (addr V4) ipv4_ops (new_with_mask (ip4 192 0 3 0) (ip4 255 255 255 0)) (ip4 255 255 252 0) =
    Ret ([@new_with_mask (addr V4) ipv4_ops (ip4 192 0 0 0) (ip4 255 255 252 0)], Lt).
Proof. ex. Qed.

(** For other masks the result need not include the original. *)
Theorem C52_superset_mixed_refuted : exists (n n' : net V4) (m : addr V4),
  wf_net n /\ valid m /\ host_bits (subnet_mask n) < host_bits m /\
  @resize_network debug_env (addr V4) ipv4_ops n m = Ret ([n'], Lt) /\ ~ includes n' n.
Proof. exact c52_superset_mixed_refuted. Qed.
Print Assumptions C52_superset_mixed_refuted.

(** ** C53: fewer host bits: the smaller networks *)
Theorem C53_subnets : forall (R : Rust) (F : family) (n : net F) (m : addr F),
  wf_net n -> valid m -> host_bits m < host_bits (subnet_mask n) ->
  let pos := position (subnet_mask n) (base_addr n) in
  exists l, resize_network n m = Ret (l, Gt) /\
    N.of_nat (List.length l) = 2 ^ (host_bits (subnet_mask n) - host_bits m) /\
    Forall (fun e => wf_net e /\ subnet_mask e = m) l /\
    (forall c : addr F, valid c ->
       ((exists e, In e l /\ member e c) <->
        pos <= position m c < pos + 2 ^ host_bits (subnet_mask n))) /\
    StronglySorted (fun e e' : net F => value (base_addr e) < value (base_addr e') /\ ~ share e e') l.
Proof. exact c53_subnets. Qed.
Print Assumptions C53_subnets.
Example C53_subnets_ex :
  @resize_network debug_env (addr V4) ipv4_ops (new_with_mask (ip4 192 0 2 0) (ip4 255 0 255 255)) (ip4 255 255 192 255) =
    Ret (map (fun k => @new_with_mask (addr V4) ipv4_ops (ip4 192 2 0 k) (ip4 255 255 192 255)) [0; 1; 2; 3], Gt).
Proof. ex. Qed.

Theorem C53_subnets_cidr : forall (R : Rust) (F : family) (n : net F) (m : addr F) (p q : N),
  is_cidr n p -> valid m -> contiguous F (value m) q -> p < q ->
  exists l, resize_network n m = Ret (l, Gt) /\
    N.of_nat (List.length l) = 2 ^ (q - p) /\
    Forall (fun e => is_cidr e q) l /\
    (forall c : addr F, valid c -> (member n c <-> exists e, In e l /\ member e c)) /\
    StronglySorted (fun e e' : net F => forall x y, valid x -> valid y ->
                      member e x -> member e' y -> value x < value y) l.
Proof. exact c53_subnets_cidr. Qed.
Print Assumptions C53_subnets_cidr.
Example C53_subnets_cidr_ex :
  @resize_network debug_env (addr V4) ipv4_ops (new_with_mask (ip4 255 255 255 0) (ip4 255 255 255 0)) (ip4 255 255 255 192) =
    Ret (map (fun k => @new_with_mask (addr V4) ipv4_ops (ip4 255 255 255 k) (ip4 255 255 255 192)) [0; 64; 128; 192], Gt).
Proof. ex. Qed.

(** ** C54: as many host bits *)
Theorem C54_same_size : forall (R : Rust) (F : family) (n : net F) (m : addr F),
  wf_net n -> valid m -> host_bits m = host_bits (subnet_mask n) ->
  exists n', resize_network n m = Ret ([n'], Eq) /\ wf_net n' /\ subnet_mask n' = m /\
    position m (base_addr n') = position (subnet_mask n) (base_addr n).
Proof. exact c54_same_size. Qed.
Print Assumptions C54_same_size.
Example C54_same_size_ex :
  @resize_network debug_env (addr V4) ipv4_ops (new_with_mask (ip4 192 0 2 0) (ip4 255 255 255 0)) (ip4 255 0 255 255) =
    Ret ([@new_with_mask (addr V4) ipv4_ops (ip4 192 0 0 2) (ip4 255 0 255 255)], Eq).
Proof. ex. Qed.

Theorem C54_own_mask : forall (R : Rust) (F : family) (n : net F),
  wf_net n -> resize_network n (subnet_mask n) = Ret ([n], Eq).
Proof. exact c54_own_mask. Qed.
Print Assumptions C54_own_mask.
Example C54_own_mask_ex :
  let n := @new_with_mask (addr V4) ipv4_ops (ip4 192 0 2 0) (ip4 255 0 255 255) in
  @resize_network debug_env (addr V4) ipv4_ops n (subnet_mask n) = Ret ([n], Eq).
Proof. ex. Qed.

Theorem C54_there_and_back : forall (R : Rust) (F : family) (n n' : net F) (m : addr F),
  wf_net n -> valid m ->
  resize_network n m = Ret ([n'], Eq) -> resize_network n' (subnet_mask n) = Ret ([n], Eq).
Proof. exact c54_there_and_back. Qed.
Print Assumptions C54_there_and_back.
Example C54_there_and_back_ex :
  let n := @new_with_mask (addr V4) ipv4_ops (ip4 192 0 2 0) (ip4 255 255 255 0) in
  let n' := @new_with_mask (addr V4) ipv4_ops (ip4 192 0 0 2) (ip4 255 0 255 255) in
  @resize_network debug_env (addr V4) ipv4_ops n (subnet_mask n') = Ret ([n'], Eq) /\
  @resize_network debug_env (addr V4) ipv4_ops n' (subnet_mask n) = Ret ([n], Eq).
Proof. ex. Qed.
