(** * Properties of masks and bit manipulation: C12 - C16 *)
From Verif Require Import RustBase Addr Cidr BitManip Spec Demo Pf_Bits.

(** ** C12: recognising CIDR masks *)
Theorem C12_mask_recognition : forall (bs : list N) (p : N),
  u8s bs ->
  let w := 8 * N.of_nat (List.length bs) in
  (prefix_from_subnet_mask_bytes bs = Some p <-> p <= w /\ be_value bs = 2 ^ w - 2 ^ (w - p)).
Proof. exact c12_mask_recognition. Qed.
Print Assumptions C12_mask_recognition.
Example C12_mask_recognition_ex :
  u8s [255; 255; 240; 0] /\ prefix_from_subnet_mask_bytes [255; 255; 240; 0] = Some 20 /\
  prefix_from_subnet_mask_bytes [255; 0; 255; 0] = None /\
  prefix_from_subnet_mask_bytes [255; 254; 128; 0] = None /\
  prefix_from_subnet_mask_bytes [0; 0; 0; 0] = Some 0.
Proof. ex. Qed.

Theorem C12_mixed_mask : forall (bs : list N),
  u8s bs ->
  let w := 8 * N.of_nat (List.length bs) in
  (prefix_from_subnet_mask_bytes bs = None <-> forall p, p <= w -> be_value bs <> 2 ^ w - 2 ^ (w - p)).
Proof. exact c12_mixed_mask. Qed.
Print Assumptions C12_mixed_mask.
Example C12_mixed_mask_ex : prefix_from_subnet_mask_bytes [255; 255; 0; 1] = None.
Proof. ex. Qed.

(** ** C13: building masks *)
Theorem C13_mask_construction : forall (p : N) (n : nat),
  let bs := subnet_mask_bytes_from_prefix p n in
  let w := 8 * N.of_nat n in
  List.length bs = n /\ u8s bs /\ be_value bs = 2 ^ w - 2 ^ (w - N.min p w).
Proof. exact c13_mask_construction. Qed.
Print Assumptions C13_mask_construction.
Example C13_mask_construction_ex :
  subnet_mask_bytes_from_prefix 20 4 = [255; 255; 240; 0] /\
  subnet_mask_bytes_from_prefix 99 4 = [255; 255; 255; 255] /\
  subnet_mask_bytes_from_prefix 0 4 = [0; 0; 0; 0].
Proof. ex. Qed.

Theorem C13_recognise_constructed : forall (p : N) (n : nat),
  prefix_from_subnet_mask_bytes (subnet_mask_bytes_from_prefix p n) = Some (N.min p (8 * N.of_nat n)).
Proof. exact c13_recognise_constructed. Qed.
Print Assumptions C13_recognise_constructed.
Example C13_recognise_constructed_ex :
  prefix_from_subnet_mask_bytes (subnet_mask_bytes_from_prefix 77 16) = Some 77.
Proof. ex. Qed.

Theorem C13_construct_recognised : forall (bs : list N) (p : N),
  u8s bs -> prefix_from_subnet_mask_bytes bs = Some p ->
  subnet_mask_bytes_from_prefix p (List.length bs) = bs.
Proof. exact c13_construct_recognised. Qed.
Print Assumptions C13_construct_recognised.
Example C13_construct_recognised_ex :
  u8s [255; 192; 0; 0] /\ prefix_from_subnet_mask_bytes [255; 192; 0; 0] = Some 10 /\
  subnet_mask_bytes_from_prefix 10 4 = [255; 192; 0; 0].
Proof. ex. Qed.

(** ** C14: bytes and bits *)
Theorem C14_bytes_to_bits : forall (bs : list N),
  u8s bs -> bytes_to_bits bs = nbits (8 * List.length bs) (be_value bs).
Proof. exact c14_bytes_to_bits. Qed.
Print Assumptions C14_bytes_to_bits.
Example C14_bytes_to_bits_ex :
  bytes_to_bits [0x81; 0x0f] =
    [true; false; false; false; false; false; false; true; false; false; false; false; true; true; true; true].
Proof. ex. Qed.

Theorem C14_bytes_bits_bytes : forall (bs : list N),
  u8s bs -> bits_to_bytes (bytes_to_bits bs) = bs.
Proof. exact c14_bytes_bits_bytes. Qed.
Print Assumptions C14_bytes_bits_bytes.
Example C14_bytes_bits_bytes_ex :
  u8s [1; 128; 255; 66; 7] /\ bits_to_bytes (bytes_to_bits [1; 128; 255; 66; 7]) = [1; 128; 255; 66; 7].
Proof. ex. Qed.

Theorem C14_bits_bytes_bits : forall (l : list bool),
  exists k, (k < 8)%nat /\ ((List.length l + k) mod 8 = 0)%nat /\
    bytes_to_bits (bits_to_bytes l) = l ++ repeat false k /\ u8s (bits_to_bytes l).
Proof. exact c14_bits_bytes_bits. Qed.
Print Assumptions C14_bits_bytes_bits.
Example C14_bits_bytes_bits_ex :
  bits_to_bytes [true; false; false; false; false; false; false; true; true; true] = [0x81; 0xc0].
Proof. ex. Qed.

Theorem C14_binary_string : forall (bs : list N),
  u8s bs ->
  bytes_to_binary bs =
  map (fun b : bool => if b then "1"%char else "0"%char) (nbits (8 * List.length bs) (be_value bs)).
Proof. exact c14_binary_string. Qed.
Print Assumptions C14_binary_string.
Example C14_binary_string_ex : bytes_to_binary [0x81; 0x0f] = lit "1000000100001111".
Proof. ex. Qed.

(** ** C15: unravelling and weaving *)
Theorem C15_weave_unravel : forall (R : Rust) (F : family) (a m : addr F),
  valid a -> valid m ->
  exists u, unravel_address a m = Ret u /\ valid u /\ weave_address u m = Ret a.
Proof. exact c15_weave_unravel. Qed.
Print Assumptions C15_weave_unravel.
Example C15_weave_unravel_ex :
  valid (ip4 192 168 77 9) /\ valid (ip4 255 0 255 0) /\
  @unravel_address (addr V4) ipv4_ops (ip4 192 168 77 9) (ip4 255 0 255 0) = Ret (ip4 192 77 168 9) /\
  @weave_address (addr V4) ipv4_ops (ip4 192 77 168 9) (ip4 255 0 255 0) = Ret (ip4 192 168 77 9).
Proof. ex. Qed.

Theorem C15_unravel_weave : forall (R : Rust) (F : family) (a m : addr F),
  valid a -> valid m ->
  exists w, weave_address a m = Ret w /\ valid w /\ unravel_address w m = Ret a.
Proof. exact c15_unravel_weave. Qed.
Print Assumptions C15_unravel_weave.
Example C15_unravel_weave_ex :
  @weave_address (addr V4) ipv4_ops (ip4 1 2 3 4) (ip4 0 255 0 255) = Ret (ip4 3 1 4 2) /\
  @unravel_address (addr V4) ipv4_ops (ip4 3 1 4 2) (ip4 0 255 0 255) = Ret (ip4 1 2 3 4).
Proof. ex. Qed.

(** ** C16: what unravelling does *)
Theorem C16_unravel_gathers : forall (R : Rust) (F : family) (a m : addr F),
  valid a -> valid m ->
  exists u, unravel_address a m = Ret u /\ valid u /\
    abits u = select (abits m) (abits a) ++ reject (abits m) (abits a).
Proof. exact c16_unravel_gathers. Qed.
Print Assumptions C16_unravel_gathers.
Example C16_unravel_gathers_ex :
  @unravel_address (addr V4) ipv4_ops (ip4 0x12 0x34 0x56 0x78) (ip4 0x0f 0xf0 0x0f 0xf0) = Ret (ip4 0x23 0x67 0x14 0x58).
Proof. ex. Qed.

Theorem C16_unravel_cidr : forall (R : Rust) (F : family) (a m : addr F) (p : N),
  valid a -> valid m -> contiguous F (value m) p ->
  unravel_address a m = Ret a /\ weave_address a m = Ret a.
Proof. exact c16_unravel_cidr. Qed.
Print Assumptions C16_unravel_cidr.
Example C16_unravel_cidr_ex :
  contiguous V4 (value (ip4 255 255 240 0)) 20 /\
  @unravel_address (addr V4) ipv4_ops (ip4 1 2 3 4) (ip4 255 255 240 0) = Ret (ip4 1 2 3 4).
Proof. ex. Qed.

Theorem C16_unravel_mask : forall (R : Rust) (F : family) (m : addr F),
  valid m ->
  exists u, unravel_address m m = Ret u /\ valid u /\
    value u = prefix_mask F (N.of_nat (ones (N.to_nat (width F)) (value m))).
Proof. exact c16_unravel_mask. Qed.
Print Assumptions C16_unravel_mask.
Example C16_unravel_mask_ex :
  @unravel_address (addr V4) ipv4_ops (ip4 0x0f 0xf0 0x0f 0xf0) (ip4 0x0f 0xf0 0x0f 0xf0) = Ret (ip4 255 255 0 0).
Proof. ex. Qed.
