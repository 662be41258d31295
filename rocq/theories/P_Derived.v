(** * P_Derived: the derived comparisons (C90) *)
From Verif Require Import RustBase Addr Net Parse Minimize Derived Spec SpecOrder Demo Pf_Derived.

(** ** C90: how networks and parsed arguments are ordered *)
Theorem C90_orders : forall (R : Rust),
  (forall F : family, total_order (@acmp (addr F) _) /\ total_order (@net_cmp (addr F) _)) /\
  total_order parsed_cmp /\ total_order spec_cmp /\ total_order specs_cmp /\ total_order subnet_cmp.
Proof. exact c90_orders. Qed.
Print Assumptions C90_orders.
Example C90_orders_ex :
  let n p := new_with_mask (A := addr V4) (ip4 10 1 2 3) p in
  @specs_cmp debug_env (Specs4 [(ip4 10 1 2 3, n (ip4 255 255 255 0))]) (Specs4 [(ip4 10 1 2 3, n (ip4 255 255 255 0)); (ip4 0 0 0 0, n (ip4 0 0 0 0))]) = Lt /\
  @specs_cmp debug_env (Specs4 [(ip4 10 1 2 3, n (ip4 255 255 255 0))]) (Specs4 [(ip4 10 1 2 3, n (ip4 255 255 0 0)); (ip4 0 0 0 0, n (ip4 0 0 0 0))]) = Gt /\
  @specs_cmp debug_env SpecsMixed (Specs6 []) = Lt.
Proof. ex. Qed.

(** Networks are ordered by the key [minimize] sorts by. *)
Theorem C90_key : forall (R : Rust) (F : family) (n n' : net F),
  wf_net n -> wf_net n' -> net_cmp n n' = key_cmp n n'.
Proof. exact c90_key. Qed.
Print Assumptions C90_key.
Example C90_key_ex :
  let n := new_with_mask (A := addr V4) (ip4 10 1 2 3) (ip4 255 0 255 0) in
  let n' := new_with_mask (A := addr V4) (ip4 10 1 2 3) (ip4 255 255 0 0) in
  net_cmp n n' = Lt /\ key_cmp n n' = Lt.
Proof. ex. Qed.

Theorem C90_sort : forall (R : Rust) (F : family) (l : list (net F)),
  Forall wf_net l -> sort_by net_cmp l = sort_nets l.
Proof. exact c90_sort. Qed.
Print Assumptions C90_sort.
Example C90_sort_ex :
  let n a p := new_with_mask (A := addr V4) a p in
  let l := [n (ip4 10 2 0 0) (ip4 255 255 0 0); n (ip4 10 1 0 0) (ip4 255 255 255 0); n (ip4 10 2 0 0) (ip4 255 254 0 0)] in
  @sort_by debug_env _ net_cmp l = [n (ip4 10 1 0 0) (ip4 255 255 255 0); n (ip4 10 2 0 0) (ip4 255 254 0 0); n (ip4 10 2 0 0) (ip4 255 255 0 0)].
Proof. ex. Qed.

(** By first address; of those that start at the same, the larger first. *)
Theorem C90_cidr : forall (R : Rust) (F : family) (n n' : net F) (p p' : N),
  is_cidr n p -> is_cidr n' p' ->
  (net_cmp n n' = Lt <->
   value (base_addr n) < value (base_addr n') \/ value (base_addr n) = value (base_addr n') /\ p < p').
Proof. exact c90_cidr. Qed.
Print Assumptions C90_cidr.
Example C90_cidr_ex :
  let n a p := @new_with_mask (addr V6) (@ipv6_ops debug_env) a p in
  @net_cmp (addr V6) (@ipv6_ops debug_env) (n (ip6 8193 3512 0 0 0 0 0 0) (ip6 65535 65535 0 0 0 0 0 0)) (n (ip6 8193 3512 0 0 0 0 0 0) (ip6 65535 65535 65535 0 0 0 0 0)) = Lt /\
  @net_cmp (addr V6) (@ipv6_ops debug_env) (n (ip6 8193 3512 1 0 0 0 0 0) (ip6 65535 65535 65535 0 0 0 0 0)) (n (ip6 8193 3512 0 0 0 0 0 0) (ip6 65535 65535 65535 65535 0 0 0 0)) = Gt.
Proof. ex. Qed.

(** Whatever the masks: a network comes before all others inside it, on which the
    first pass of [minimize] relies. *)
Theorem C90_inside : forall (R : Rust) (F : family) (n n' : net F),
  wf_net n -> wf_net n' -> n <> n' -> (forall a, valid a -> member n' a -> member n a) -> net_cmp n n' = Lt.
Proof. exact c90_inside. Qed.
Print Assumptions C90_inside.
Example C90_inside_ex :
  let n a p := new_with_mask (A := addr V4) a p in
  net_cmp (n (ip4 10 0 0 5) (ip4 255 0 0 255)) (n (ip4 10 3 0 5) (ip4 255 255 0 255)) = Lt.
Proof. ex. Qed.

(** Addresses and networks compare equal exactly if they are. *)
Theorem C90_equal : forall (R : Rust) (F : family) (n n' : net F),
  (net_cmp n n' = Eq <-> net_eqb n n' = true) /\
  (wf_net n -> wf_net n' -> (net_cmp n n' = Eq <-> forall a, valid a -> (member n a <-> member n' a))).
Proof. exact c90_equal. Qed.
Print Assumptions C90_equal.
Example C90_equal_ex :
  net_cmp (new_with_mask (A := addr V4) (ip4 10 1 2 3) (ip4 255 0 255 0)) (new_with_mask (A := addr V4) (ip4 10 7 2 9) (ip4 255 0 255 0)) = Eq.
Proof. ex. Qed.

(** IPv4 comes before IPv6; within a family numbers decide. *)
Theorem C90_families : forall (R : Rust) (a a' : addr V4) (b b' : addr V6),
  valid a -> valid a' -> valid b -> valid b' ->
  parsed_cmp (PAddr4 a) (PAddr6 b) = Lt /\
  parsed_cmp (PAddr4 a) (PAddr4 a') = N.compare (value a) (value a') /\
  parsed_cmp (PAddr6 b) (PAddr6 b') = N.compare (value b) (value b').
Proof. exact c90_families. Qed.
Print Assumptions C90_families.
Example C90_families_ex :
  @parsed_cmp debug_env (PAddr4 (ip4 255 255 255 255)) (PAddr6 (ip6 0 0 0 0 0 0 0 0)) = Lt.
Proof. ex. Qed.

(** The default address is number 0, and no address is below it. *)
Theorem C90_zero : forall (R : Rust) (a : addr V4) (b : addr V6),
  IPV4_ZERO = ipv4_default /\ IPV6_ZERO = ipv6_default /\ value (F := V4) IPV4_ZERO = 0 /\ value (F := V6) IPV6_ZERO = 0 /\
  acmp IPV4_ZERO a <> Gt /\ acmp IPV6_ZERO b <> Gt.
Proof. exact c90_zero. Qed.
Print Assumptions C90_zero.
Example C90_zero_ex :
  acmp (A := addr V4) IPV4_ZERO (ip4 0 0 0 1) = Lt /\ IPV6_ZERO = ip6 0 0 0 0 0 0 0 0.
Proof. ex. Qed.

(** The orders in full: fields and variants count in the order of their declaration. *)
Theorem C90_declared : forall (R : Rust),
  (forall (F : family) (n m : net F), valid (base_addr n) -> valid (subnet_mask n) -> valid (base_addr m) -> valid (subnet_mask m) ->
     (net_cmp n m = Lt <-> net_before n m)) /\
  (forall s s', sound_spec s -> sound_spec s' -> (spec_cmp s s' = Lt <-> spec_before s s')) /\
  (forall s s', sound_specs s -> sound_specs s' -> (specs_cmp s s' = Lt <-> specs_before s s')) /\
  (forall s s', sound_subnet s -> sound_subnet s' -> (subnet_cmp s s' = Lt <-> subnet_before s s')).
Proof. exact c90_declared. Qed.
Print Assumptions C90_declared.
Example C90_declared_ex :
  @net_cmp (addr V4) _ {| base_addr := ip4 1 2 3 4; subnet_mask := ip4 255 255 255 0; cidr_prefix := None |}
                       {| base_addr := ip4 1 2 3 4; subnet_mask := ip4 255 255 255 0; cidr_prefix := Some 24 |} = Lt /\
  @specs_cmp debug_env SpecsNothing SpecsMixed = Lt /\ @specs_cmp debug_env SpecsMixed (Specs4 []) = Lt /\
  @subnet_cmp debug_env (PSCidr 33) (PSMask4 (ip4 0 0 0 0)) = Lt /\
  @subnet_cmp debug_env (PSMask6 (ip6 0 0 0 0 0 0 0 1)) (PSMask4 (ip4 255 255 255 255)) = Gt.
Proof. ex. Qed.
