(** * BitManip: model of /repo/src/bit_manip.rs *)
From Verif Require Export RustBase Addr Cidr.

(** bit_manip.rs:11-15: the bits of one byte. *)
Definition byte_bits (byte : N) : list bool :=
  map (fun bit_idx => negb (N.land byte (N.shiftl 1 (7 - N.of_nat bit_idx)) =? 0)) (seq 0 8).

(** bit_manip.rs:8-18 *)
Definition bytes_to_bits (bytes : list N) : list bool := flat_map byte_bits bytes.

(** bit_manip.rs:22-28 *)
Definition bytes_to_binary (bytes : list N) : str :=
  map (fun bit : bool => if bit then "1"%char else "0"%char) (bytes_to_bits bytes).

(** bit_manip.rs:41-56: the loop over the bits ([i] is the index of the head of
    [bits]) followed by the flush of an incomplete byte; the test
    [bits.len() % 8 != 0] after the loop is [i % 8 != 0] with the final [i]. *)
Fixpoint bits_to_bytes_loop (bits : list bool) (i : nat) (cur_byte : N) : list N :=
  match bits with
  | [] => if negb (Nat.eqb (i mod 8) 0) then [cur_byte] else []
  | b :: bits' =>
      let cur_byte :=
        if b then N.lor cur_byte (N.shiftl 1 (7 - N.of_nat (i mod 8))) else cur_byte in
      if Nat.eqb (i mod 8) 7 then cur_byte :: bits_to_bytes_loop bits' (S i) 0
      else bits_to_bytes_loop bits' (S i) cur_byte
  end.

(** bit_manip.rs:33-59 *)
Definition bits_to_bytes (bits : list bool) : list N := bits_to_bytes_loop bits 0 0.

(** bit_manip.rs:77-83: distribute the address bits by the mask bits. *)
Fixpoint partition_bits (addr_bits mask_bits net_bits host_bits : list bool)
  : list bool * list bool :=
  match addr_bits, mask_bits with
  | a :: addr_bits', is_net :: mask_bits' =>
      if is_net : bool then partition_bits addr_bits' mask_bits' (net_bits ++ [a]) host_bits
      else partition_bits addr_bits' mask_bits' net_bits (host_bits ++ [a])
  | _, _ => (net_bits, host_bits)
  end.

(** bit_manip.rs:129-140: the weaving loop. *)
Fixpoint weave_loop (mask_bits net_bits host_bits : list bool) (net_index host_index : nat)
  : res (list bool) :=
  match mask_bits with
  | [] => Ret []
  | is_net :: mask_bits' =>
      if is_net : bool then
        ssb <- index net_bits net_index ;;
        rest <- weave_loop mask_bits' net_bits host_bits (S net_index) host_index ;;
        Ret (ssb :: rest)
      else
        ssb <- index host_bits host_index ;;
        rest <- weave_loop mask_bits' net_bits host_bits net_index (S host_index) ;;
        Ret (ssb :: rest)
  end.

Definition sum_N (l : list N) : N := fold_left N.add l 0.

Section Generic.
  Context {A : Type} `{IpAddress A}.

  (** bit_manip.rs:63-91 *)
  Definition unravel_address (addr subnet_mask : A) : res A :=
    let mask_bytes := to_bytes subnet_mask in
    match prefix_from_subnet_mask_bytes mask_bytes with
    | Some _ => Ret addr
    | None =>
        let addr_bits := bytes_to_bits (to_bytes addr) in
        let mask_bits := bytes_to_bits mask_bytes in
        let '(net_bits, host_bits) := partition_bits addr_bits mask_bits [] [] in
        unwrap (from_bytes (bits_to_bytes (net_bits ++ host_bits)))
    end.

  (** bit_manip.rs:95-144. The splitting loop (114-123), which pushes bit [i] to
      net_bits iff [i < cidr_prefix], is firstn/skipn. *)
  Definition weave_address (addr subnet_mask : A) : res A :=
    let mask_bytes := to_bytes subnet_mask in
    match prefix_from_subnet_mask_bytes mask_bytes with
    | Some _ => Ret addr
    | None =>
        let addr_bits := bytes_to_bits (to_bytes addr) in
        let cidr_prefix := N.to_nat (sum_N (map popcount mask_bytes)) in
        let mask_bits := bytes_to_bits mask_bytes in
        let net_bits := firstn cidr_prefix addr_bits in
        let host_bits := skipn cidr_prefix addr_bits in
        ret_bits <- weave_loop mask_bits net_bits host_bits 0 0 ;;
        unwrap (from_bytes (bits_to_bytes ret_bits))
    end.
End Generic.
