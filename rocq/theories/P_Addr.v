(** * Properties of addresses: C01, C06, C07, C08, C09, C10, C11 *)
From Verif Require Import RustBase Addr Spec SpecText Demo Pf_Addr.

(** ** C01: addresses and bytes *)
Theorem C01_bytes_of_address : forall (R : Rust) (F : family) (a : addr F),
  valid a ->
  N.of_nat (List.length (to_bytes a)) * 8 = width F /\ u8s (to_bytes a) /\ be_value (to_bytes a) = value a.
Proof. exact c01_bytes_of_address. Qed.
Print Assumptions C01_bytes_of_address.
Example C01_bytes_of_address_ex :
  valid (ip4 192 0 2 1) /\ v4_to_bytes (ip4 192 0 2 1) = [192; 0; 2; 1] /\
  v6_to_bytes (ip6 0x2001 0xdb8 0 0 0 0 0 0x12ff) =
    [0x20; 0x01; 0x0d; 0xb8; 0; 0; 0; 0; 0; 0; 0; 0; 0; 0; 0x12; 0xff].
Proof. ex. Qed.

Theorem C01_bytes_roundtrip : forall (R : Rust) (F : family) (a : addr F),
  valid a -> from_bytes (to_bytes a) = Some a.
Proof. exact c01_bytes_roundtrip. Qed.
Print Assumptions C01_bytes_roundtrip.
Example C01_bytes_roundtrip_ex :
  valid (ip6 0x2001 0xdb8 0 0 0 0 0 0x12ff) /\
  v6_from_bytes (v6_to_bytes (ip6 0x2001 0xdb8 0 0 0 0 0 0x12ff)) = Some (ip6 0x2001 0xdb8 0 0 0 0 0 0x12ff).
Proof. ex. Qed.

Theorem C01_address_of_bytes : forall (R : Rust) (F : family) (bs : list N),
  u8s bs -> N.of_nat (List.length bs) * 8 = width F ->
  exists a : addr F, from_bytes bs = Some a /\ valid a /\ value a = be_value bs /\ to_bytes a = bs.
Proof. exact c01_address_of_bytes. Qed.
Print Assumptions C01_address_of_bytes.
Example C01_address_of_bytes_ex :
  u8s [10; 20; 30; 255] /\ N.of_nat (List.length [10; 20; 30; 255]) * 8 = width V4 /\
  v4_from_bytes [10; 20; 30; 255] = Some (ip4 10 20 30 255).
Proof. ex. Qed.

Theorem C01_other_lengths_rejected : forall (R : Rust) (F : family) (bs : list N),
  N.of_nat (List.length bs) * 8 <> width F -> @from_bytes (addr F) _ bs = None.
Proof. exact c01_other_lengths_rejected. Qed.
Print Assumptions C01_other_lengths_rejected.
Example C01_other_lengths_rejected_ex :
  N.of_nat (List.length [1; 2; 3; 4; 5]) * 8 <> width V4 /\ v4_from_bytes [1; 2; 3; 4; 5] = None.
Proof. ex. Qed.

(** ** C06: IPv6 groups *)
Theorem C06_groups_of_address : forall (a : addr V6),
  valid a ->
  List.length (v6_to_chunks a) = 8%nat /\ u16s (v6_to_chunks a) /\ groups_value (v6_to_chunks a) = value a.
Proof. exact c06_groups_of_address. Qed.
Print Assumptions C06_groups_of_address.
Example C06_groups_of_address_ex :
  valid (ip6 0x2001 0xdb8 1 2 3 4 5 0xffff) /\
  v6_to_chunks (ip6 0x2001 0xdb8 1 2 3 4 5 0xffff) = [0x2001; 0xdb8; 1; 2; 3; 4; 5; 0xffff].
Proof. ex. Qed.

Theorem C06_address_of_groups : forall (gs : list N),
  u16s gs -> List.length gs = 8%nat ->
  exists a : addr V6, v6_from_chunks gs = Some a /\ valid a /\ value a = groups_value gs /\ v6_to_chunks a = gs.
Proof. exact c06_address_of_groups. Qed.
Print Assumptions C06_address_of_groups.
Example C06_address_of_groups_ex :
  u16s [0x2001; 0xdb8; 1; 2; 3; 4; 5; 0xffff] /\
  v6_from_chunks [0x2001; 0xdb8; 1; 2; 3; 4; 5; 0xffff] = Some (ip6 0x2001 0xdb8 1 2 3 4 5 0xffff).
Proof. ex. Qed.

Theorem C06_groups_roundtrip : forall (a : addr V6),
  valid a -> v6_from_chunks (v6_to_chunks a) = Some a.
Proof. exact c06_groups_roundtrip. Qed.
Print Assumptions C06_groups_roundtrip.
Example C06_groups_roundtrip_ex :
  valid (ip6 0 1 0 2 0 3 0 4) /\
  v6_from_chunks (v6_to_chunks (ip6 0 1 0 2 0 3 0 4)) = Some (ip6 0 1 0 2 0 3 0 4).
Proof. ex. Qed.

Theorem C06_other_lengths_rejected : forall (gs : list N),
  List.length gs <> 8%nat -> v6_from_chunks gs = None.
Proof. exact c06_other_lengths_rejected. Qed.
Print Assumptions C06_other_lengths_rejected.
Example C06_other_lengths_rejected_ex : v6_from_chunks [1; 2; 3; 4; 5; 6; 7] = None.
Proof. ex. Qed.

(** ** C07: addition *)
Theorem C07_add_address : forall (R : Rust) (F : family) (a b : addr F),
  valid a -> valid b ->
  (value a + value b < 2 ^ width F ->
     exists c, add_addr a b = Some c /\ valid c /\ value c = value a + value b) /\
  (2 ^ width F <= value a + value b -> add_addr a b = None).
Proof. exact c07_add_address. Qed.
Print Assumptions C07_add_address.
Example C07_add_address_ex :
  (* a carry between the halves *)
  v6_add_addr (ip6 0 0 0 1 0xffff 0xffff 0xffff 0xffff) (ip6 0 0 0 2 0 0 0 3) = Some (ip6 0 0 0 4 0 0 0 2) /\
  v6_add_addr (ip6 0xffff 0xffff 0xffff 0xffff 0xffff 0xffff 0xffff 0xffff) (ip6 0 0 0 0 0 0 0 1) = None /\
  v4_add_addr (ip4 10 0 0 255) (ip4 0 0 1 1) = Some (ip4 10 0 2 0).
Proof. ex. Qed.

Theorem C07_add_offset : forall (R : Rust) (F : family) (a : addr F) (o : Z),
  valid a -> (0 <= o <= i32_max)%Z ->
  (value a + Z.to_N o < 2 ^ width F ->
     exists c, add_offset a o = Ret (Some c) /\ valid c /\ value c = value a + Z.to_N o) /\
  (2 ^ width F <= value a + Z.to_N o -> add_offset a o = Ret None).
Proof. exact c07_add_offset. Qed.
Print Assumptions C07_add_offset.
Example C07_add_offset_ex :
  (0 <= 2147483647 <= i32_max)%Z /\
  @v6_add_offset debug_env (ip6 0 0 0 1 0xffff 0xffff 0xffff 0xffff) 2147483647 =
    Ret (Some (ip6 0 0 0 2 0 0 0x7fff 0xfffe)) /\
  v4_add_offset (ip4 255 255 255 255) 1 = None.
Proof. ex. Qed.

(** IPv4 takes negative offsets as well. *)
Theorem C07_add_offset_v4_signed : forall (R : Rust) (a : addr V4) (o : Z),
  valid a -> (i32_min <= o <= i32_max)%Z ->
  ((0 <= Z.of_N (value a) + o < 2 ^ 32)%Z ->
     exists c, add_offset a o = Ret (Some c) /\ valid c /\ Z.of_N (value c) = (Z.of_N (value a) + o)%Z) /\
  (~ (0 <= Z.of_N (value a) + o < 2 ^ 32)%Z -> add_offset a o = Ret None).
Proof. exact c07_add_offset_v4_signed. Qed.
Print Assumptions C07_add_offset_v4_signed.
Example C07_add_offset_v4_signed_ex :
  (i32_min <= -257 <= i32_max)%Z /\ v4_add_offset (ip4 10 0 2 0) (-257) = Some (ip4 10 0 0 255).
Proof. ex. Qed.

(** ** C08: subtraction *)
Theorem C08_subtract_v4 : forall (R : Rust) (a b : addr V4),
  valid a -> valid b ->
  (value b <= value a ->
     exists c, subtract_addr a b = Some c /\ valid c /\ value c = value a - value b) /\
  (value a < value b -> subtract_addr a b = None).
Proof. exact c08_subtract_v4. Qed.
Print Assumptions C08_subtract_v4.
Example C08_subtract_v4_ex :
  v4_subtract_addr (ip4 10 0 2 0) (ip4 0 0 0 1) = Some (ip4 10 0 1 255) /\
  v4_subtract_addr (ip4 10 0 2 0) (ip4 10 0 2 1) = None.
Proof. ex. Qed.

Theorem C08_subtract_offset_v4 : forall (R : Rust) (a : addr V4) (o : Z),
  valid a -> (i32_min <= o <= i32_max)%Z ->
  ((0 <= Z.of_N (value a) - o < 2 ^ 32)%Z ->
     exists c, subtract_offset a o = Ret (Some c) /\ valid c /\ Z.of_N (value c) = (Z.of_N (value a) - o)%Z) /\
  (~ (0 <= Z.of_N (value a) - o < 2 ^ 32)%Z -> subtract_offset a o = Ret None).
Proof. exact c08_subtract_offset_v4. Qed.
Print Assumptions C08_subtract_offset_v4.
Example C08_subtract_offset_v4_ex :
  v4_subtract_offset (ip4 10 0 2 0) 257 = Some (ip4 10 0 0 255) /\
  v4_subtract_offset (ip4 0 0 0 0) i32_min = Some (ip4 128 0 0 0).
Proof. ex. Qed.

(** The full claim fails for IPv6: the borrow is lost. *)
Theorem C08_subtract_v6_refuted : exists (a b : addr V6),
  valid a /\ valid b /\ value b <= value a /\
  forall c : addr V6, v6_subtract_addr a b = Some c -> value c <> value a - value b.
Proof. exact c08_subtract_v6_refuted. Qed.
Print Assumptions C08_subtract_v6_refuted.

(** Exactly what the IPv6 subtraction computes: failure is reported exactly on
    underflow; the result is right exactly when the low half needs no borrow, and
    2^64 too large otherwise. *)
Theorem C08_subtract_v6_exact : forall (R : Rust) (a b : addr V6),
  valid a -> valid b ->
  (value a < value b -> subtract_addr a b = None) /\
  (value b <= value a ->
     exists c, subtract_addr a b = Some c /\ valid c /\
       value c = value a - value b + (if value a mod 2 ^ 64 <? value b mod 2 ^ 64 then 2 ^ 64 else 0)).
Proof. exact c08_subtract_v6_exact. Qed.
Print Assumptions C08_subtract_v6_exact.
Example C08_subtract_v6_exact_ex :
  v6_subtract_addr (ip6 0 0 0 5 0 0 0 9) (ip6 0 0 0 2 0 0 0 3) = Some (ip6 0 0 0 3 0 0 0 6) /\
  (* should be 0:0:0:1:ffff:ffff:ffff:ffff *)
  v6_subtract_addr (ip6 0 0 0 2 0 0 0 0) (ip6 0 0 0 0 0 0 0 1) =
    Some (ip6 0 0 0 2 0xffff 0xffff 0xffff 0xffff).
Proof. ex. Qed.

Theorem C08_subtract_offset_v6_exact : forall (R : Rust) (a : addr V6) (o : Z),
  valid a -> (0 <= o <= i32_max)%Z ->
  (value a < Z.to_N o -> subtract_offset a o = Ret None) /\
  (Z.to_N o <= value a ->
     exists c, subtract_offset a o = Ret (Some c) /\ valid c /\
       value c = value a - Z.to_N o + (if value a mod 2 ^ 64 <? Z.to_N o then 2 ^ 64 else 0)).
Proof. exact c08_subtract_offset_v6_exact. Qed.
Print Assumptions C08_subtract_offset_v6_exact.
Example C08_subtract_offset_v6_exact_ex :
  @v6_subtract_offset debug_env (ip6 0 0 0 2 0 0 1 0) 1 = Ret (Some (ip6 0 0 0 2 0 0 0 0xffff)) /\
  @v6_subtract_offset debug_env (ip6 0 0 0 2 0 0 0 0) 1 = Ret (Some (ip6 0 0 0 2 0xffff 0xffff 0xffff 0xffff)) /\
  @v6_subtract_offset debug_env (ip6 0 0 0 0 0 0 0 0) 1 = Ret None.
Proof. ex. Qed.

(** Negative IPv6 offsets swap addition and subtraction. *)
Theorem C08_negative_offset_v6 : forall (R : Rust) (a : addr V6) (o : Z),
  (i32_min < o < 0)%Z ->
  add_offset a o = subtract_offset a (- o)%Z /\ subtract_offset a o = add_offset a (- o)%Z.
Proof. exact c08_negative_offset_v6. Qed.
Print Assumptions C08_negative_offset_v6.
Example C08_negative_offset_v6_ex :
  (i32_min < -5 < 0)%Z /\ @v6_add_offset debug_env (ip6 0 0 0 2 0 0 0 9) (-5) = Ret (Some (ip6 0 0 0 2 0 0 0 4)).
Proof. ex. Qed.

(** ** C09: offsets do not crash *)
Theorem C09_offsets_return : forall (R : Rust) (F : family) (a : addr F) (o : Z),
  (i32_min <= o <= i32_max)%Z -> (F = V6 -> o <> i32_min) ->
  exists r s, add_offset a o = Ret r /\ subtract_offset a o = Ret s.
Proof. exact c09_offsets_return. Qed.
Print Assumptions C09_offsets_return.
Example C09_offsets_return_ex :
  @v6_add_offset debug_env (ip6 1 0 0 0 0 0 0 0) (i32_min + 1) = Ret (Some (ip6 1 0 0 0 0xffff 0xffff 0x8000 1)).
Proof. ex. Qed.

(** The full claim fails for IPv6 and the least offset: overflow panic in a
    build with overflow checks, unbounded recursion in one without. *)
Theorem C09_offsets_return_refuted : exists (a : addr V6) (o : Z),
  valid a /\ (i32_min <= o <= i32_max)%Z /\
  forall R : Rust, ~ (exists r, add_offset a o = Ret r) /\ ~ (exists r, subtract_offset a o = Ret r).
Proof. exact c09_offsets_return_refuted. Qed.
Print Assumptions C09_offsets_return_refuted.

Theorem C09_least_offset : forall (R : Rust) (a : addr V6),
  (overflow_checks = true -> add_offset a i32_min = Panic /\ subtract_offset a i32_min = Panic) /\
  (overflow_checks = false -> add_offset a i32_min = Diverge /\ subtract_offset a i32_min = Diverge).
Proof. exact c09_least_offset. Qed.
Print Assumptions C09_least_offset.
Example C09_least_offset_ex :
  @v6_add_offset debug_env (ip6 1 0 0 0 0 0 0 0) i32_min = Panic /\ @v6_add_offset release_env (ip6 1 0 0 0 0 0 0 0) i32_min = Diverge.
Proof. ex. Qed.

(** The recursion depth the model allows makes no difference. *)
Theorem C09_recursion_depth : forall (R : Rust) (a : addr V6) (o : Z) (sub : bool) (depth : nat),
  (i32_min <= o <= i32_max)%Z -> (2 <= depth)%nat ->
  v6_offset depth sub a o = v6_offset 2 sub a o.
Proof. exact c09_recursion_depth. Qed.
Print Assumptions C09_recursion_depth.
Example C09_recursion_depth_ex :
  @v6_offset release_env 2 true (ip6 0 0 0 0 0 0 0 1) i32_min = Diverge /\
  @v6_offset release_env 2 true (ip6 0 0 0 0 0 0 0 1) (-1) = Ret (Some (ip6 0 0 0 0 0 0 0 2)).
Proof. ex. Qed.

(** ** C10: order and bit operations *)
Theorem C10_compare : forall (R : Rust) (F : family) (a b : addr F),
  valid a -> valid b -> acmp a b = (value a ?= value b).
Proof. exact c10_compare. Qed.
Print Assumptions C10_compare.
Example C10_compare_ex : v6_cmp (ip6 0 0 0 1 0 0 0 0) (ip6 0 0 0 0 0xffff 0 0 0) = Gt.
Proof. ex. Qed.

Theorem C10_equal : forall (R : Rust) (F : family) (a b : addr F),
  valid a -> valid b -> (aeqb a b = true <-> value a = value b).
Proof. exact c10_equal. Qed.
Print Assumptions C10_equal.
Example C10_equal_ex : v6_eqb (ip6 0 0 0 1 0 0 0 0) (ip6 0 0 0 0 0 0 0 1) = false.
Proof. ex. Qed.

Theorem C10_bitwise : forall (R : Rust) (F : family) (a b : addr F),
  valid a -> valid b ->
  (valid (band a b) /\ value (band a b) = N.land (value a) (value b)) /\
  (valid (bor a b) /\ value (bor a b) = N.lor (value a) (value b)) /\
  (valid (bxor a b) /\ value (bxor a b) = N.lxor (value a) (value b)).
Proof. exact c10_bitwise. Qed.
Print Assumptions C10_bitwise.
Example C10_bitwise_ex :
  v4_and (ip4 192 168 77 1) (ip4 255 255 240 0) = ip4 192 168 64 0 /\
  v6_xor (ip6 1 2 3 4 5 6 7 8) (ip6 1 0 0 4 5 0 0 8) = ip6 0 2 3 0 0 6 7 0.
Proof. ex. Qed.

Theorem C10_negate : forall (R : Rust) (F : family) (a : addr F),
  valid a ->
  valid (bitwise_negate a) /\
  forall i, i < width F -> N.testbit (value (bitwise_negate a)) i = negb (N.testbit (value a) i).
Proof. exact c10_negate. Qed.
Print Assumptions C10_negate.
Example C10_negate_ex : v4_negate (ip4 255 255 240 0) = ip4 0 0 15 255.
Proof. ex. Qed.

Theorem C10_bit_counts : forall (R : Rust) (F : family) (a : addr F),
  valid a ->
  count_ones a = N.of_nat (ones (N.to_nat (width F)) (value a)) /\
  count_zeros a = N.of_nat (zeros (N.to_nat (width F)) (value a)) /\
  count_ones a + count_zeros a = width F.
Proof. exact c10_bit_counts. Qed.
Print Assumptions C10_bit_counts.
Example C10_bit_counts_ex :
  v4_count_ones (ip4 255 255 240 0) = 20 /\ v6_count_zeros (ip6 0xffff 0xf000 0 0 0 0 0 1) = 107.
Proof. ex. Qed.

(** ** C11: full string form: the claim (eight groups of four digits joined by
    colons, 39 characters) fails, for every address. *)
Theorem C11_full_string_refuted : exists (a : addr V6),
  valid a /\
  ~ exists gs, List.length gs = 8%nat /\ Forall (fun g => List.length g = 4%nat) gs /\
               v6_to_full_string a = separated ":" gs.
Proof. exact c11_full_string_refuted. Qed.
Print Assumptions C11_full_string_refuted.

Theorem C11_full_string_empty : forall (a : addr V6), v6_to_full_string a = [].
Proof. exact c11_full_string_empty. Qed.
Print Assumptions C11_full_string_empty.
Example C11_full_string_empty_ex : v6_to_full_string (ip6 0xfe80 0 0 0 1 2 3 4) = [].
Proof. ex. Qed.
