(** * Spec: the vocabulary in which the properties are stated.

    Written independently of the program: addresses are numbers of [width] bits,
    networks are sets of numbers. Only the data types of the model (records and
    inductives) are used, none of its functions. *)
From Verif Require Export RustBase Addr Net.

(** The two address families. *)
Inductive family := V4 | V6.

Definition addr (F : family) : Type := match F with V4 => ipv4 | V6 => ipv6 end.
Definition net (F : family) : Type := network (addr F).

(** Width in bits. *)
Definition width (F : family) : N := match F with V4 => 32 | V6 => 128 end.

(** The number an address stands for. *)
Definition value {F : family} : addr F -> N :=
  match F as F return addr F -> N with
  | V4 => fun a => addr_value a
  | V6 => fun a => top_half a * 2 ^ 64 + bottom_half a
  end.

(** The u32 / u64 fields are in range: true of every Rust value. *)
Definition valid {F : family} : addr F -> Prop :=
  match F as F return addr F -> Prop with
  | V4 => fun a => addr_value a < 2 ^ 32
  | V6 => fun a => top_half a < 2 ^ 64 /\ bottom_half a < 2 ^ 64
  end.

(** The model's operations of a family. *)
#[global] Instance addr_ops `{Rust} (F : family) : IpAddress (addr F) :=
  match F as F return IpAddress (addr F) with
  | V4 => ipv4_ops
  | V6 => ipv6_ops
  end.

(** Number with the first [p] of [width F] bits set. *)
Definition prefix_mask (F : family) (p : N) : N := 2 ^ width F - 2 ^ (width F - p).

(** [m] consists of [p] ones followed by zeros. *)
Definition contiguous (F : family) (m p : N) : Prop := p <= width F /\ m = prefix_mask F p.

(** [n], read as a set of addresses: those that agree with the base on every bit
    set in the mask. *)
Definition member {F : family} (n : net F) (a : addr F) : Prop :=
  forall i, i < width F ->
    N.testbit (value (subnet_mask n)) i = true ->
    N.testbit (value a) i = N.testbit (value (base_addr n)) i.

(** Invariant of all networks the program builds: fields in range, no host bit
    set in the base, the prefix recorded iff the mask is contiguous. *)
Record wf_net {F : family} (n : net F) : Prop := {
  wf_base : valid (base_addr n);
  wf_mask : valid (subnet_mask n);
  wf_host : forall i, i < width F ->
      N.testbit (value (subnet_mask n)) i = false ->
      N.testbit (value (base_addr n)) i = false;
  wf_prefix : forall p, cidr_prefix n = Some p <-> contiguous F (value (subnet_mask n)) p
}.

(** A CIDR network: it has a prefix. *)
Definition is_cidr {F : family} (n : net F) (p : N) : Prop :=
  wf_net n /\ cidr_prefix n = Some p.

(** The [w] lowest bits of [n], most significant first. *)
Definition nbits (w : nat) (n : N) : list bool :=
  map (fun i => N.testbit n (N.of_nat (w - 1 - i))) (seq 0 w).
Definition abits {F : family} (a : addr F) : list bool := nbits (N.to_nat (width F)) (value a).

(** Number of ones among the [w] lowest bits. *)
Definition ones (w : nat) (n : N) : nat := List.length (filter (fun b => b) (nbits w n)).
Definition zeros (w : nat) (n : N) : nat := List.length (filter negb (nbits w n)).

(** The elements of [l] at the positions where [m] is true (false), in order. *)
Definition select {T : Type} (m : list bool) (l : list T) : list T :=
  map snd (filter fst (combine m l)).
Definition reject {T : Type} (m : list bool) (l : list T) : list T :=
  map snd (filter (fun p => negb (fst p)) (combine m l)).

(** Big-endian value of a byte sequence; a byte is below 256. *)
Definition be_value (bs : list N) : N := fold_left (fun acc b => acc * 256 + b) bs 0.
Definition u8s (bs : list N) : Prop := Forall (fun b => b < 256) bs.

(** Value of a sequence of 16-bit groups. *)
Definition groups_value (gs : list N) : N := fold_left (fun acc g => acc * 65536 + g) gs 0.
Definition u16s (gs : list N) : Prop := Forall (fun g => g < 65536) gs.

(** [a] has no bit set where the mask [m] has none. *)
Definition no_host_bits {F : family} (m a : addr F) : Prop :=
  forall i, i < width F -> N.testbit (value m) i = false -> N.testbit (value a) i = false.

(** The network has exactly [k] addresses. *)
Definition count {F : family} (n : net F) (k : N) : Prop :=
  exists l : list (addr F),
    NoDup l /\ (forall a, In a l <-> valid a /\ member n a) /\ N.of_nat (List.length l) = k.

(** [a] is the lowest (highest) address of the network. *)
Definition lowest {F : family} (n : net F) (a : addr F) : Prop :=
  valid a /\ member n a /\ forall b, valid b -> member n b -> value a <= value b.
Definition highest {F : family} (n : net F) (a : addr F) : Prop :=
  valid a /\ member n a /\ forall b, valid b -> member n b -> value b <= value a.

(** [n] includes every address of [n']. *)
Definition includes {F : family} (n n' : net F) : Prop :=
  forall a, valid a -> member n' a -> member n a.
Definition share {F : family} (n n' : net F) : Prop :=
  exists a, valid a /\ member n a /\ member n' a.

(** Number of host bits of a mask. *)
Definition host_bits {F : family} (m : addr F) : N :=
  N.of_nat (zeros (N.to_nat (width F)) (value m)).

(** Number written by a list of bits, most significant first. *)
Definition bits_number (l : list bool) : N :=
  fold_left (fun acc b => 2 * acc + (if b : bool then 1 else 0)) l 0.

(** Position of an address in the order in which the bits under the mask count
    more than the others: for a contiguous mask simply the value. *)
Definition position {F : family} (m a : addr F) : N :=
  bits_number (select (abits m) (abits a) ++ reject (abits m) (abits a)).

(** Splitting: number of host bits of the smallest block with at least [c]
    addresses besides two reserved ones (at least one address in any case). *)
Definition piece (c : Z) : N := N.log2_up (Z.to_N (c + 2)).
(** Addresses taken by the smallest blocks for all requests, and the number of
    host bits of the largest of them. *)
Definition total (cs : list Z) : N := fold_right N.add 0 (map (fun c => 2 ^ piece c) cs).
Definition largest (cs : list Z) : N := fold_right N.max 0 (map piece cs).

(** Where the pieces of a split start: the base of the network, rounded down to
    a multiple of the largest piece. *)
Definition run_start {F : family} (n : net F) (cs : list Z) : N :=
  value (base_addr n) - value (base_addr n) mod 2 ^ largest cs.

(** The networks of a list have no address in common. *)
Definition disjoint_nets {F : family} (l : list (net F)) : Prop :=
  ForallOrdPairs (fun n n' => ~ share n n') l.
