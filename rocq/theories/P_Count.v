(** * Properties of the sizes of results, and of results for more and less: C79, C80 *)
From Verif Require Import RustBase Addr Cidr BitManip Net Derange Minimize Split Resize Spec SpecCount Demo Pf_Count.

(** ** C79: sizes add up *)
(** The networks of a minimized list have together as many addresses as there are
    different addresses in the given ones. *)
Theorem C79_minimize : forall (R : Rust) (F : family) (l r : list (net F)) (k : N),
  Forall (fun n => exists p, is_cidr n p) l -> minimize_subnets l = Ret r ->
  (sizes r k <-> number (covered l) k).
Proof. exact c79_minimize. Qed.
Print Assumptions C79_minimize.
Example C79_minimize_ex :
  let net k m := @new_with_mask (addr V4) ipv4_ops (ip4 10 0 0 k) (ip4 255 255 255 m) in
  match @minimize_subnets debug_env (addr V4) ipv4_ops [net 0 192; net 8 248; net 64 224; net 0 240] with
  | Ret r => map (@address_count (addr V4) ipv4_ops) r = [64; 32]
  | _ => False
  end.
Proof. ex. Qed.

(** That is never more than the given ones have together, and fewer exactly if some of
    these have addresses in common. *)
Theorem C79_minimize_gain : forall (R : Rust) (F : family) (l r : list (net F)) (k k' : N),
  Forall (fun n => exists p, is_cidr n p) l -> minimize_subnets l = Ret r ->
  sizes l k -> sizes r k' -> k' <= k /\ (k' = k <-> disjoint_nets l).
Proof. exact c79_minimize_gain. Qed.
Print Assumptions C79_minimize_gain.
Example C79_minimize_gain_ex :
  let net k m := @new_with_mask (addr V4) ipv4_ops (ip4 10 0 0 k) (ip4 255 255 255 m) in
  match @minimize_subnets debug_env (addr V4) ipv4_ops [net 0 255; net 0 255],
        @minimize_subnets debug_env (addr V4) ipv4_ops [net 1 255; net 0 255] with
  | Ret r, Ret r' => map (@address_count (addr V4) ipv4_ops) r = [1] /\ map (@address_count (addr V4) ipv4_ops) r' = [2]
  | _, _ => False
  end.
Proof. ex. Qed.

Theorem C79_derange : forall (R : Rust) (F : family) (a b : addr F) (l : list (net F)),
  valid a -> valid b -> range_to_subnets a b = Ret l ->
  sizes l (N.max (value a) (value b) - N.min (value a) (value b) + 1).
Proof. exact c79_derange. Qed.
Print Assumptions C79_derange.
Example C79_derange_ex :
  match @range_to_subnets debug_env (addr V4) ipv4_ops (ip4 10 0 1 3) (ip4 10 0 0 250) with
  | Ret l => map (@address_count (addr V4) ipv4_ops) l = [2; 4; 4]
  | _ => False
  end.
Proof. ex. Qed.

(** Unless the network is made larger, resizing keeps the number of addresses. *)
Theorem C79_resize : forall (R : Rust) (F : family) (n : net F) (m : addr F) (l : list (net F)) (k : N),
  wf_net n -> valid m -> host_bits m <= host_bits (subnet_mask n) ->
  (exists o, resize_network n m = Ret (l, o)) -> (sizes l k <-> count n k).
Proof. exact c79_resize. Qed.
Print Assumptions C79_resize.
Example C79_resize_ex :
  match @resize_network debug_env (addr V4) ipv4_ops (new_with_mask (ip4 192 0 2 0) (ip4 255 0 255 255)) (ip4 255 255 192 255) with
  | Ret (l, _) => map (@address_count (addr V4) ipv4_ops) l = [64; 64; 64; 64]
  | _ => False
  end.
Proof. ex. Qed.

Theorem C79_split : forall (R : Rust) (F : family) (n : net F) (cs : list Z) (r : list (net F)),
  wf_net n -> split_subnet n cs = Ret (Some r) -> sizes r (total cs).
Proof. exact c79_split. Qed.
Print Assumptions C79_split.
Example C79_split_ex :
  match @split_subnet debug_env (addr V4) ipv4_ops (new_with_mask (ip4 10 0 0 0) (ip4 255 255 255 0)) [2%Z; 100%Z; 0%Z] with
  | Ret (Some r) => map (@address_count (addr V4) ipv4_ops) r = [4; 128; 2]
  | _ => False
  end.
Proof. ex. Qed.

(** ** C80: more and less *)
(** Networks with more addresses give larger networks. *)
Theorem C80_minimize : forall (R : Rust) (F : family) (l l' r r' : list (net F)),
  Forall (fun n => exists p, is_cidr n p) l -> Forall (fun n => exists p, is_cidr n p) l' ->
  minimize_subnets l = Ret r -> minimize_subnets l' = Ret r' ->
  ((forall a, valid a -> covered l a -> covered l' a) <-> forall n, In n r -> exists n', In n' r' /\ includes n' n).
Proof. exact c80_minimize. Qed.
Print Assumptions C80_minimize.
Example C80_minimize_ex :
  let net k m := @new_with_mask (addr V4) ipv4_ops (ip4 10 0 0 k) (ip4 255 255 255 m) in
  @minimize_subnets debug_env (addr V4) ipv4_ops [net 2 255; net 1 255] = Ret [net 1 255; net 2 255] /\
  @minimize_subnets debug_env (addr V4) ipv4_ops [net 3 255; net 1 255; net 2 255] = Ret [net 1 255; net 2 254].
Proof. ex. Qed.

(** A larger range gives larger networks. *)
Theorem C80_derange : forall (R : Rust) (F : family) (a b a' b' : addr F) (l l' : list (net F)),
  valid a -> valid b -> valid a' -> valid b' ->
  range_to_subnets a b = Ret l -> range_to_subnets a' b' = Ret l' ->
  (N.min (value a') (value b') <= N.min (value a) (value b) /\ N.max (value a) (value b) <= N.max (value a') (value b') <->
   forall n, In n l -> exists n', In n' l' /\ includes n' n).
Proof. exact c80_derange. Qed.
Print Assumptions C80_derange.
Example C80_derange_ex :
  let net k m := @new_with_mask (addr V4) ipv4_ops (ip4 10 0 0 k) (ip4 255 255 255 m) in
  @range_to_subnets debug_env (addr V4) ipv4_ops (ip4 10 0 0 3) (ip4 10 0 0 5) = Ret [net 3 255; net 4 254] /\
  @range_to_subnets debug_env (addr V4) ipv4_ops (ip4 10 0 0 2) (ip4 10 0 0 8) = Ret [net 2 254; net 4 252; net 8 255].
Proof. ex. Qed.

(** Where a split succeeds, so does one that asks for less. *)
Theorem C80_split : forall (R : Rust) (F : family) (n : net F) (cs cs' : list Z) (r : list (net F)),
  wf_net n -> split_subnet n cs = Ret (Some r) -> asks_less cs' cs ->
  exists r', split_subnet n cs' = Ret (Some r').
Proof. exact c80_split. Qed.
Print Assumptions C80_split.
Example C80_split_ex :
  let n := @new_with_mask (addr V4) ipv4_ops (ip4 255 255 255 0) (ip4 255 255 255 0) in
  match @split_subnet debug_env (addr V4) ipv4_ops n [126%Z; 62%Z; 30%Z], @split_subnet debug_env (addr V4) ipv4_ops n [20%Z; 100%Z],
        @split_subnet debug_env (addr V4) ipv4_ops n [126%Z; 62%Z; 62%Z] with
  | Ret (Some _), Ret (Some _), Ret None => True
  | _, _, _ => False
  end.
Proof. vm_compute. exact I. Qed.

(** If all of it is inside the network, that is too. *)
Theorem C80_split_inside : forall (R : Rust) (F : family) (n : net F) (p : N) (cs cs' : list Z) (r : list (net F)),
  is_cidr n p -> split_subnet n cs = Ret (Some r) -> Forall (includes n) r -> asks_less cs' cs ->
  exists r', split_subnet n cs' = Ret (Some r') /\ Forall (includes n) r'.
Proof. exact c80_split_inside. Qed.
Print Assumptions C80_split_inside.
Example C80_split_inside_ex :
  let n := @new_with_mask (addr V4) ipv4_ops (ip4 10 0 0 0) (ip4 255 255 255 0) in
  match @split_subnet debug_env (addr V4) ipv4_ops n [126%Z; 62%Z; 30%Z; 30%Z], @split_subnet debug_env (addr V4) ipv4_ops n [30%Z; 61%Z] with
  | Ret (Some r), Ret (Some r') => forallb (is_superset_of n) r = true /\ forallb (is_superset_of n) r' = true
  | _, _ => False
  end.
Proof. ex. Qed.
