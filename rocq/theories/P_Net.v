(** * Properties of networks: C17 - C28 *)
From Verif Require Import RustBase Addr Cidr BitManip Net Spec Demo Pf_Net.

(** ** C17: construction *)
Theorem C17_with_mask : forall (R : Rust) (F : family) (a m : addr F),
  valid a -> valid m ->
  let n := new_with_mask a m in
  wf_net n /\ member n a /\ subnet_mask n = m /\ value (base_addr n) = N.land (value a) (value m).
Proof. exact c17_with_mask. Qed.
Print Assumptions C17_with_mask.
Example C17_with_mask_ex :
  valid (ip4 192 168 77 9) /\ valid (ip4 255 0 255 0) /\
  @new_with_mask (addr V4) ipv4_ops (ip4 192 168 77 9) (ip4 255 0 255 0) =
    {| base_addr := ip4 192 0 77 0; subnet_mask := ip4 255 0 255 0; cidr_prefix := None |} /\
  @new_with_mask (addr V4) ipv4_ops (ip4 192 168 77 9) (ip4 255 255 240 0) =
    {| base_addr := ip4 192 168 64 0; subnet_mask := ip4 255 255 240 0; cidr_prefix := Some 20 |}.
Proof. ex. Qed.

Theorem C17_with_prefix : forall (R : Rust) (F : family) (a : addr F) (p : N),
  valid a -> p <= width F ->
  exists n, new_with_prefix a p = Ret n /\ is_cidr n p /\ member n a /\
    value (subnet_mask n) = prefix_mask F p /\ value (base_addr n) = N.land (value a) (prefix_mask F p) /\
    (forall m, valid m -> value m = prefix_mask F p -> new_with_mask a m = n).
Proof. exact c17_with_prefix. Qed.
Print Assumptions C17_with_prefix.
Example C17_with_prefix_ex :
  @new_with_prefix (addr V4) ipv4_ops (ip4 192 168 77 9) 20 =
    Ret {| base_addr := ip4 192 168 64 0; subnet_mask := ip4 255 255 240 0; cidr_prefix := Some 20 |}.
Proof. ex. Qed.

(** Construction with a prefix beyond the width (reachable only inside derange,
    see C37) returns as well. *)
Theorem C17_with_prefix_total : forall (R : Rust) (F : family) (a : addr F) (p : N),
  valid a ->
  exists n, new_with_prefix a p = Ret n /\ cidr_prefix n = Some p /\
            value (subnet_mask n) = prefix_mask F (N.min p (width F)).
Proof. exact c17_with_prefix_total. Qed.
Print Assumptions C17_with_prefix_total.
Example C17_with_prefix_total_ex :
  @new_with_prefix (addr V4) ipv4_ops (ip4 192 168 77 9) 40 =
    Ret {| base_addr := ip4 192 168 77 9; subnet_mask := ip4 255 255 255 255; cidr_prefix := Some 40 |}.
Proof. ex. Qed.

(** ** C18: strict construction *)
Theorem C18_strict_mask : forall (R : Rust) (F : family) (a m : addr F) (n : net F),
  valid a -> valid m ->
  (new_with_mask_strict a m = Some n <-> no_host_bits m a /\ n = new_with_mask a m).
Proof. exact c18_strict_mask. Qed.
Print Assumptions C18_strict_mask.
Example C18_strict_mask_ex :
  @new_with_mask_strict (addr V4) ipv4_ops (ip4 192 168 77 9) (ip4 255 0 255 0) = None /\
  @new_with_mask_strict (addr V4) ipv4_ops (ip4 192 0 77 0) (ip4 255 0 255 0) =
    Some {| base_addr := ip4 192 0 77 0; subnet_mask := ip4 255 0 255 0; cidr_prefix := None |}.
Proof. ex. Qed.

Theorem C18_strict_prefix : forall (R : Rust) (F : family) (a : addr F) (p : N),
  valid a -> p <= width F ->
  exists n, new_with_prefix a p = Ret n /\
    (value a mod 2 ^ (width F - p) = 0 -> new_with_prefix_strict a p = Ret (Some n)) /\
    (value a mod 2 ^ (width F - p) <> 0 -> new_with_prefix_strict a p = Ret None).
Proof. exact c18_strict_prefix. Qed.
Print Assumptions C18_strict_prefix.
Example C18_strict_prefix_ex :
  @new_with_prefix_strict (addr V4) ipv4_ops (ip4 192 168 77 9) 20 = Ret None /\
  @new_with_prefix_strict (addr V4) ipv4_ops (ip4 192 168 64 0) 20 =
    Ret (Some {| base_addr := ip4 192 168 64 0; subnet_mask := ip4 255 255 240 0; cidr_prefix := Some 20 |}).
Proof. ex. Qed.

(** ** C19: membership *)
Theorem C19_contains : forall (R : Rust) (F : family) (n : net F) (a : addr F),
  wf_net n -> valid a -> (contains n a = true <-> member n a).
Proof. exact c19_contains. Qed.
Print Assumptions C19_contains.
Example C19_contains_ex :
  let n := @new_with_mask (addr V4) ipv4_ops (ip4 192 168 77 9) (ip4 255 0 255 0) in
  @contains (addr V4) ipv4_ops n (ip4 192 5 77 200) = true /\
  @contains (addr V4) ipv4_ops n (ip4 192 5 78 200) = false.
Proof. ex. Qed.

Theorem C19_contains_cidr : forall (R : Rust) (F : family) (n : net F) (p : N) (a : addr F),
  is_cidr n p -> valid a ->
  (contains n a = true <-> value (base_addr n) <= value a < value (base_addr n) + 2 ^ (width F - p)).
Proof. exact c19_contains_cidr. Qed.
Print Assumptions C19_contains_cidr.
Example C19_contains_cidr_ex :
  let n := @new_with_mask (addr V4) ipv4_ops (ip4 192 168 77 9) (ip4 255 255 240 0) in
  cidr_prefix n = Some 20 /\ @contains (addr V4) ipv4_ops n (ip4 192 168 79 255) = true /\
  @contains (addr V4) ipv4_ops n (ip4 192 168 80 0) = false.
Proof. ex. Qed.

(** ** C20: superset *)
Theorem C20_superset : forall (R : Rust) (F : family) (n n' : net F),
  wf_net n -> wf_net n' -> (is_superset_of n n' = true <-> includes n n').
Proof. exact c20_superset. Qed.
Print Assumptions C20_superset.
Example C20_superset_ex :
  let net a m := @new_with_mask (addr V4) ipv4_ops a m in
  @is_superset_of (addr V4) ipv4_ops (net (ip4 10 0 3 0) (ip4 255 0 255 0)) (net (ip4 10 9 3 0) (ip4 255 255 255 0)) = true /\
  @is_superset_of (addr V4) ipv4_ops (net (ip4 10 0 0 0) (ip4 255 255 0 0)) (net (ip4 10 0 0 0) (ip4 255 0 255 0)) = false.
Proof. ex. Qed.

Theorem C20_subset : forall (R : Rust) (F : family) (n n' : net F),
  wf_net n -> wf_net n' -> (is_subset_of n n' = true <-> includes n' n).
Proof. exact c20_subset. Qed.
Print Assumptions C20_subset.
Example C20_subset_ex :
  let net a m := @new_with_mask (addr V4) ipv4_ops a m in
  @is_subset_of (addr V4) ipv4_ops (net (ip4 10 9 3 0) (ip4 255 255 255 0)) (net (ip4 10 0 3 0) (ip4 255 0 255 0)) = true.
Proof. ex. Qed.

(** ** C21: partial order *)
Theorem C21_partial_order : forall (R : Rust) (F : family) (n1 n2 n3 : net F),
  wf_net n1 -> wf_net n2 -> wf_net n3 ->
  is_superset_of n1 n1 = true /\
  (is_superset_of n1 n2 = true -> is_superset_of n2 n3 = true -> is_superset_of n1 n3 = true) /\
  (is_superset_of n1 n2 = true -> is_superset_of n2 n1 = true -> n1 = n2).
Proof. exact c21_partial_order. Qed.
Print Assumptions C21_partial_order.
Example C21_partial_order_ex :
  let net a m := @new_with_mask (addr V4) ipv4_ops a m in
  let n1 := net (ip4 10 0 0 0) (ip4 255 0 0 0) in
  let n2 := net (ip4 10 0 3 0) (ip4 255 0 255 0) in
  let n3 := net (ip4 10 9 3 0) (ip4 255 255 255 0) in
  @is_superset_of (addr V4) ipv4_ops n1 n2 = true /\ @is_superset_of (addr V4) ipv4_ops n2 n3 = true /\
  @is_superset_of (addr V4) ipv4_ops n1 n3 = true /\ @is_superset_of (addr V4) ipv4_ops n3 n1 = false.
Proof. ex. Qed.

(** Two well-formed networks with the same addresses are the same value. *)
Theorem C21_extensionality : forall (R : Rust) (F : family) (n n' : net F),
  wf_net n -> wf_net n' -> (forall a, valid a -> (member n a <-> member n' a)) -> n = n'.
Proof. exact c21_extensionality. Qed.
Print Assumptions C21_extensionality.
Example C21_extensionality_ex :
  @new_with_mask (addr V4) ipv4_ops (ip4 10 0 3 7) (ip4 255 0 255 0) =
  @new_with_mask (addr V4) ipv4_ops (ip4 10 200 3 8) (ip4 255 0 255 0).
Proof. ex. Qed.

(** ** C22: intersection *)
Theorem C22_intersects_cidr : forall (R : Rust) (F : family) (n n' : net F) (p p' : N),
  is_cidr n p -> is_cidr n' p' ->
  exists r, intersects n n' = Ret r /\ (r = true <-> share n n').
Proof. exact c22_intersects_cidr. Qed.
Print Assumptions C22_intersects_cidr.
Example C22_intersects_cidr_ex :
  let net a m := @new_with_mask (addr V4) ipv4_ops a m in
  @intersects debug_env (addr V4) ipv4_ops (net (ip4 10 0 0 0) (ip4 255 0 0 0)) (net (ip4 10 9 3 0) (ip4 255 255 255 0)) = Ret true /\
  @intersects debug_env (addr V4) ipv4_ops (net (ip4 10 9 2 0) (ip4 255 255 255 0)) (net (ip4 10 9 3 0) (ip4 255 255 255 0)) = Ret false.
Proof. ex. Qed.

(** For arbitrary masks only one direction holds ... *)
Theorem C22_intersects_complete : forall (R : Rust) (F : family) (n n' : net F),
  wf_net n -> wf_net n' ->
  exists r, intersects n n' = Ret r /\ (share n n' -> r = true).
Proof. exact c22_intersects_complete. Qed.
Print Assumptions C22_intersects_complete.
Example C22_intersects_complete_ex :
  let net a m := @new_with_mask (addr V4) ipv4_ops a m in
  @intersects debug_env (addr V4) ipv4_ops (net (ip4 10 0 3 0) (ip4 255 0 255 0)) (net (ip4 10 9 0 0) (ip4 255 255 0 0)) = Ret true.
Proof. ex. Qed.

(** ... and exactly this interval test is computed, ... *)
Theorem C22_intersects_exact : forall (R : Rust) (F : family) (n n' : net F) (h h' : addr F),
  wf_net n -> wf_net n' -> highest n h -> highest n' h' ->
  intersects n n' = Ret ((value (base_addr n) <=? value h') && (value (base_addr n') <=? value h)).
Proof. exact c22_intersects_exact. Qed.
Print Assumptions C22_intersects_exact.
Example C22_intersects_exact_ex :
  let net a m := @new_with_mask (addr V4) ipv4_ops a m in
  @intersects debug_env (addr V4) ipv4_ops (net (ip4 10 0 3 0) (ip4 255 0 255 0)) (net (ip4 11 9 0 0) (ip4 255 255 0 0)) = Ret false.
Proof. ex. Qed.

(** ... so the full claim fails: 10.0.0.0/255.0.255.0 and 10.0.1.0/255.0.255.0. *)
Theorem C22_intersects_mixed_refuted : exists (n n' : net V4),
  wf_net n /\ wf_net n' /\ @intersects debug_env (addr V4) ipv4_ops n n' = Ret true /\ ~ share n n'.
Proof. exact c22_intersects_mixed_refuted. Qed.
Print Assumptions C22_intersects_mixed_refuted.

(** ** C23: counts *)
Theorem C23_address_count : forall (R : Rust) (F : family) (n : net F),
  wf_net n ->
  count n (address_count n) /\
  address_count n = 2 ^ N.of_nat (zeros (N.to_nat (width F)) (value (subnet_mask n))).
Proof. exact c23_address_count. Qed.
Print Assumptions C23_address_count.
Example C23_address_count_ex :
  @address_count (addr V4) ipv4_ops (new_with_mask (ip4 10 0 3 0) (ip4 255 0 255 15)) = 4096.
Proof. ex. Qed.

Theorem C23_host_count : forall (R : Rust) (F : family) (n : net F),
  wf_net n -> host_count n = (Z.of_N (address_count n) - 2)%Z /\
  (2 <= address_count n ->
   exists l : list (addr F), NoDup l /\ Z.of_nat (List.length l) = host_count n /\
     forall a, In a l <-> valid a /\ member n a /\ ~ lowest n a /\ ~ highest n a).
Proof. exact c23_host_count. Qed.
Print Assumptions C23_host_count.
Example C23_host_count_ex :
  @host_count (addr V4) ipv4_ops (new_with_mask (ip4 10 0 3 0) (ip4 255 255 255 240)) = 14%Z /\
  @host_count (addr V4) ipv4_ops (new_with_mask (ip4 10 0 3 0) (ip4 255 255 255 255)) = (-1)%Z.
Proof. ex. Qed.

(** ** C24: first host *)
Theorem C24_first_host : forall (R : Rust) (F : family) (n : net F) (k : N),
  wf_net n -> count n k ->
  (k < 4 -> first_host_addr n = Ret None) /\
  (4 <= k -> exists a, first_host_addr n = Ret (Some a) /\ valid a /\ member n a /\
     lowest n (base_addr n) /\ value (base_addr n) < value a /\
     forall c, valid c -> member n c -> c = base_addr n \/ value a <= value c).
Proof. exact c24_first_host. Qed.
Print Assumptions C24_first_host.
Example C24_first_host_ex :
  @first_host_addr (addr V4) ipv4_ops (new_with_mask (ip4 10 0 3 0) (ip4 255 0 255 255)) = Ret (Some (ip4 10 1 3 0)) /\
  @first_host_addr (addr V4) ipv4_ops (new_with_mask (ip4 10 0 3 0) (ip4 255 255 255 254)) = Ret None.
Proof. ex. Qed.

Theorem C24_first_host_cidr : forall (R : Rust) (F : family) (n : net F) (p : N),
  is_cidr n p -> p + 2 <= width F ->
  exists a, first_host_addr n = Ret (Some a) /\ valid a /\ value a = value (base_addr n) + 1.
Proof. exact c24_first_host_cidr. Qed.
Print Assumptions C24_first_host_cidr.
Example C24_first_host_cidr_ex :
  @first_host_addr (addr V4) ipv4_ops (new_with_mask (ip4 10 0 3 0) (ip4 255 255 255 252)) = Ret (Some (ip4 10 0 3 1)).
Proof. ex. Qed.

(** ** C25: broadcast and last address *)
Theorem C25_broadcast : forall (R : Rust) (F : family) (n : net F) (k : N),
  wf_net n -> count n k ->
  (k < 2 -> broadcast_addr n = Ret None) /\
  (2 <= k -> exists a, broadcast_addr n = Ret (Some a) /\ highest n a).
Proof. exact c25_broadcast. Qed.
Print Assumptions C25_broadcast.
Example C25_broadcast_ex :
  @broadcast_addr debug_env (addr V4) ipv4_ops (new_with_mask (ip4 10 0 3 0) (ip4 255 0 255 255)) = Ret (Some (ip4 10 255 3 0)) /\
  @broadcast_addr debug_env (addr V4) ipv4_ops (new_with_mask (ip4 10 0 3 0) (ip4 255 255 255 255)) = Ret None.
Proof. ex. Qed.

Theorem C25_last_addr : forall (R : Rust) (F : family) (n : net F),
  wf_net n -> exists a, last_addr_of_subnet n = Ret a /\ highest n a.
Proof. exact c25_last_addr. Qed.
Print Assumptions C25_last_addr.
Example C25_last_addr_ex :
  @last_addr_of_subnet debug_env (addr V4) ipv4_ops (new_with_mask (ip4 10 0 3 0) (ip4 255 0 255 255)) = Ret (ip4 10 255 3 0) /\
  @last_addr_of_subnet debug_env (addr V4) ipv4_ops (new_with_mask (ip4 10 0 3 0) (ip4 255 255 255 255)) = Ret (ip4 10 0 3 0).
Proof. ex. Qed.

(** ** C26: last host *)
Theorem C26_last_host : forall (R : Rust) (F : family) (n : net F) (k : N),
  wf_net n -> count n k ->
  (k < 4 -> last_host_addr n = Ret None) /\
  (4 <= k -> exists a h, last_host_addr n = Ret (Some a) /\ valid a /\ member n a /\
     highest n h /\ value a < value h /\
     forall c, valid c -> member n c -> c = h \/ value c <= value a).
Proof. exact c26_last_host. Qed.
Print Assumptions C26_last_host.
Example C26_last_host_ex :
  @last_host_addr debug_env (addr V4) ipv4_ops (new_with_mask (ip4 10 0 3 0) (ip4 255 0 255 255)) = Ret (Some (ip4 10 254 3 0)) /\
  @last_host_addr debug_env (addr V4) ipv4_ops (new_with_mask (ip4 10 0 3 0) (ip4 255 255 255 254)) = Ret None.
Proof. ex. Qed.

Theorem C26_hosts_together : forall (R : Rust) (F : family) (n : net F),
  wf_net n ->
  exists f l, first_host_addr n = Ret f /\ last_host_addr n = Ret l /\ (f = None <-> l = None).
Proof. exact c26_hosts_together. Qed.
Print Assumptions C26_hosts_together.
Example C26_hosts_together_ex :
  @last_host_addr debug_env (addr V6) (@ipv6_ops debug_env)
    (@new_with_mask (addr V6) (@ipv6_ops debug_env) (ip6 1 2 3 4 5 6 7 8) (ip6 0xffff 0xffff 0xffff 0xffff 0xffff 0xffff 0xffff 0xfff0)) =
    Ret (Some (ip6 1 2 3 4 5 6 7 14)).
Proof. ex. Qed.

(** ** C27: next network *)
Theorem C27_next_base : forall (R : Rust) (F : family) (n : net F),
  wf_net n ->
  (exists a, next_subnet_base_addr n = Ret (Some a) /\ valid a /\ no_host_bits (subnet_mask n) a /\
     value (base_addr n) < value a /\
     forall b, valid b -> no_host_bits (subnet_mask n) b -> value (base_addr n) < value b -> value a <= value b)
  \/
  (next_subnet_base_addr n = Ret None /\
     forall b, valid b -> no_host_bits (subnet_mask n) b -> value b <= value (base_addr n)).
Proof. exact c27_next_base. Qed.
Print Assumptions C27_next_base.
Example C27_next_base_ex :
  @next_subnet_base_addr debug_env (addr V4) ipv4_ops (new_with_mask (ip4 10 0 255 0) (ip4 255 0 255 0)) = Ret (Some (ip4 11 0 0 0)) /\
  @next_subnet_base_addr debug_env (addr V4) ipv4_ops (new_with_mask (ip4 255 0 255 0) (ip4 255 0 255 0)) = Ret None.
Proof. ex. Qed.

Theorem C27_next_base_cidr : forall (R : Rust) (F : family) (n : net F) (p : N),
  is_cidr n p ->
  let top := value (base_addr n) + 2 ^ (width F - p) in
  (top < 2 ^ width F -> exists a, next_subnet_base_addr n = Ret (Some a) /\ valid a /\ value a = top) /\
  (2 ^ width F <= top -> next_subnet_base_addr n = Ret None).
Proof. exact c27_next_base_cidr. Qed.
Print Assumptions C27_next_base_cidr.
Example C27_next_base_cidr_ex :
  @next_subnet_base_addr debug_env (addr V4) ipv4_ops (new_with_mask (ip4 10 0 255 0) (ip4 255 255 255 0)) = Ret (Some (ip4 10 1 0 0)) /\
  @next_subnet_base_addr debug_env (addr V4) ipv4_ops (new_with_mask (ip4 255 255 255 255) (ip4 255 255 255 255)) = Ret None.
Proof. ex. Qed.

(** ** C28: CIDR networks nest or are disjoint *)
Theorem C28_nest_or_disjoint : forall (R : Rust) (F : family) (n n' : net F) (p p' : N),
  is_cidr n p -> is_cidr n' p' ->
  (intersects n n' = Ret true /\ share n n' /\ (is_superset_of n n' = true \/ is_superset_of n' n = true)) \/
  (intersects n n' = Ret false /\ ~ share n n' /\ is_superset_of n n' = false /\ is_superset_of n' n = false).
Proof. exact c28_nest_or_disjoint. Qed.
Print Assumptions C28_nest_or_disjoint.
Example C28_nest_or_disjoint_ex :
  let net a m := @new_with_mask (addr V4) ipv4_ops a m in
  let n := net (ip4 10 0 0 0) (ip4 255 0 0 0) in
  let n' := net (ip4 10 9 3 0) (ip4 255 255 255 0) in
  @is_superset_of (addr V4) ipv4_ops n n' = true /\ @is_superset_of (addr V4) ipv4_ops n' n = false /\
  @intersects debug_env (addr V4) ipv4_ops n n' = Ret true.
Proof. ex. Qed.
