(** * Properties of derange (range_to_subnets): C35 - C38 *)
From Verif Require Import RustBase Addr Cidr BitManip Net Derange Spec Demo Pf_Derange.

(** ** C35: the range is covered exactly *)
Theorem C35_covers_exactly : forall (R : Rust) (F : family) (a b : addr F),
  valid a -> valid b ->
  let lo := N.min (value a) (value b) in
  let hi := N.max (value a) (value b) in
  hi + 1 < 2 ^ width F ->
  exists l, range_to_subnets a b = Ret l /\
    Forall (fun n => exists p, is_cidr n p) l /\
    (forall c : addr F, valid c -> (lo <= value c <= hi <-> exists n, In n l /\ member n c)) /\
    StronglySorted (fun n n' : net F => forall x y, valid x -> valid y ->
                      member n x -> member n' y -> value x < value y) l.
Proof. exact c35_covers_exactly. Qed.
Print Assumptions C35_covers_exactly.
Example C35_covers_exactly_ex :
  @range_to_subnets debug_env (addr V4) ipv4_ops (ip4 192 0 2 6) (ip4 192 0 2 1) =
    Ret [ {| base_addr := ip4 192 0 2 1; subnet_mask := ip4 255 255 255 255; cidr_prefix := Some 32 |};
          {| base_addr := ip4 192 0 2 2; subnet_mask := ip4 255 255 255 254; cidr_prefix := Some 31 |};
          {| base_addr := ip4 192 0 2 4; subnet_mask := ip4 255 255 255 254; cidr_prefix := Some 31 |};
          {| base_addr := ip4 192 0 2 6; subnet_mask := ip4 255 255 255 255; cidr_prefix := Some 32 |} ].
Proof. ex. Qed.

(** ** C36: no shorter list of CIDR networks covers the range *)
Theorem C36_shortest : forall (R : Rust) (F : family) (a b : addr F) (l l' : list (net F)),
  valid a -> valid b ->
  range_to_subnets a b = Ret l ->
  Forall (fun n => exists p, is_cidr n p) l' ->
  (forall c : addr F, valid c ->
     (N.min (value a) (value b) <= value c <= N.max (value a) (value b) <->
      exists n, In n l' /\ member n c)) ->
  (List.length l <= List.length l')%nat.
Proof. exact c36_shortest. Qed.
Print Assumptions C36_shortest.
Example C36_shortest_ex :
  let l' := map (fun k => @new_with_mask (addr V4) ipv4_ops (ip4 192 0 2 k) (ip4 255 255 255 255)) [2; 3; 4; 5] in
  exists l, @range_to_subnets debug_env (addr V4) ipv4_ops (ip4 192 0 2 2) (ip4 192 0 2 5) = Ret l /\
    List.length l = 2%nat /\ List.length l' = 4%nat.
Proof. eexists. split; [vm_compute; reflexivity|]. split; reflexivity. Qed.

(** Every other list of CIDR networks that covers the range and is as short has
    the same networks. *)
Theorem C36_unique : forall (R : Rust) (F : family) (a b : addr F) (l l' : list (net F)),
  valid a -> valid b ->
  range_to_subnets a b = Ret l ->
  Forall (fun n => exists p, is_cidr n p) l' ->
  (forall c : addr F, valid c ->
     (N.min (value a) (value b) <= value c <= N.max (value a) (value b) <->
      exists n, In n l' /\ member n c)) ->
  (List.length l' <= List.length l)%nat ->
  Permutation l l'.
Proof. exact c36_unique. Qed.
Print Assumptions C36_unique.
Example C36_unique_ex :
  @range_to_subnets debug_env (addr V4) ipv4_ops (ip4 192 0 2 2) (ip4 192 0 2 5) =
  Ret (rev [@new_with_mask (addr V4) ipv4_ops (ip4 192 0 2 4) (ip4 255 255 255 254);
            @new_with_mask (addr V4) ipv4_ops (ip4 192 0 2 2) (ip4 255 255 255 254)]).
Proof. ex. Qed.

(** ** C37: when derange returns. Not for ranges that end at the top address ... *)
Theorem C37_returns_iff : forall (R : Rust) (F : family) (a b : addr F),
  valid a -> valid b ->
  ((exists l, range_to_subnets a b = Ret l) <->
   N.max (value a) (value b) <> 2 ^ width F - 1).
Proof. exact c37_returns_iff. Qed.
Print Assumptions C37_returns_iff.
Example C37_returns_iff_ex :
  @range_to_subnets debug_env (addr V4) ipv4_ops (ip4 255 255 255 254) (ip4 255 255 255 254) =
    Ret [ {| base_addr := ip4 255 255 255 254; subnet_mask := ip4 255 255 255 255; cidr_prefix := Some 32 |} ] /\
  @range_to_subnets debug_env (addr V4) ipv4_ops (ip4 255 255 255 255) (ip4 255 255 255 255) = Panic.
Proof. ex. Qed.

(** ... where it panics, ... *)
Theorem C37_top_panics : forall (R : Rust) (F : family) (a b : addr F),
  valid a -> valid b ->
  0 < N.min (value a) (value b) -> N.max (value a) (value b) = 2 ^ width F - 1 ->
  range_to_subnets a b = Panic.
Proof. exact c37_top_panics. Qed.
Print Assumptions C37_top_panics.
Example C37_top_panics_ex :
  @range_to_subnets release_env (addr V4) ipv4_ops (ip4 255 255 255 0) (ip4 255 255 255 255) = Panic.
Proof. ex. Qed.

(** ... and for the full range it panics with overflow checks and runs forever,
    for any number of iterations, without. *)
Theorem C37_full_range : forall (R : Rust) (F : family) (a b : addr F),
  valid a -> valid b ->
  N.min (value a) (value b) = 0 -> N.max (value a) (value b) = 2 ^ width F - 1 ->
  (overflow_checks = true -> range_to_subnets a b = Panic) /\
  (overflow_checks = false ->
   exists last start, range_to_subnets a b = while (derange_step last) start /\
     forall k, exists s, loop (derange_step last) k start = Ret (inl s)).
Proof. exact c37_full_range. Qed.
Print Assumptions C37_full_range.
Example C37_full_range_ex :
  @range_to_subnets debug_env (addr V4) ipv4_ops (ip4 0 0 0 0) (ip4 255 255 255 255) = Panic.
Proof. ex. Qed.

Theorem C37_total_refuted : exists (a b : addr V4),
  valid a /\ valid b /\
  @range_to_subnets debug_env (addr V4) ipv4_ops a b = Panic /\
  @range_to_subnets release_env (addr V4) ipv4_ops a b = Diverge.
Proof. exact c37_total_refuted. Qed.
Print Assumptions C37_total_refuted.

(** ** C38: the ends may be swapped *)
Theorem C38_symmetric : forall (R : Rust) (F : family) (a b : addr F),
  valid a -> valid b -> range_to_subnets a b = range_to_subnets b a.
Proof. exact c38_symmetric. Qed.
Print Assumptions C38_symmetric.
Example C38_symmetric_ex :
  @range_to_subnets debug_env (addr V4) ipv4_ops (ip4 192 0 2 5) (ip4 192 0 2 2) =
  @range_to_subnets debug_env (addr V4) ipv4_ops (ip4 192 0 2 2) (ip4 192 0 2 5).
Proof. ex. Qed.
