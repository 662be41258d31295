(** * Cidr: model of /repo/src/cidr.rs *)
From Verif Require Export RustBase.

(** cidr.rs:1 *)
Definition XXX : N := 9.

(** cidr.rs:2-19, transcribed entry by entry. *)
Definition SUBNET_MASK_BYTE_TO_PREFIX : list N := [
    0; XXX; XXX; XXX; XXX; XXX; XXX; XXX; XXX; XXX; XXX; XXX; XXX; XXX; XXX; XXX;
  XXX; XXX; XXX; XXX; XXX; XXX; XXX; XXX; XXX; XXX; XXX; XXX; XXX; XXX; XXX; XXX;
  XXX; XXX; XXX; XXX; XXX; XXX; XXX; XXX; XXX; XXX; XXX; XXX; XXX; XXX; XXX; XXX;
  XXX; XXX; XXX; XXX; XXX; XXX; XXX; XXX; XXX; XXX; XXX; XXX; XXX; XXX; XXX; XXX;
  XXX; XXX; XXX; XXX; XXX; XXX; XXX; XXX; XXX; XXX; XXX; XXX; XXX; XXX; XXX; XXX;
  XXX; XXX; XXX; XXX; XXX; XXX; XXX; XXX; XXX; XXX; XXX; XXX; XXX; XXX; XXX; XXX;
  XXX; XXX; XXX; XXX; XXX; XXX; XXX; XXX; XXX; XXX; XXX; XXX; XXX; XXX; XXX; XXX;
  XXX; XXX; XXX; XXX; XXX; XXX; XXX; XXX; XXX; XXX; XXX; XXX; XXX; XXX; XXX; XXX;
    1; XXX; XXX; XXX; XXX; XXX; XXX; XXX; XXX; XXX; XXX; XXX; XXX; XXX; XXX; XXX;
  XXX; XXX; XXX; XXX; XXX; XXX; XXX; XXX; XXX; XXX; XXX; XXX; XXX; XXX; XXX; XXX;
  XXX; XXX; XXX; XXX; XXX; XXX; XXX; XXX; XXX; XXX; XXX; XXX; XXX; XXX; XXX; XXX;
  XXX; XXX; XXX; XXX; XXX; XXX; XXX; XXX; XXX; XXX; XXX; XXX; XXX; XXX; XXX; XXX;
    2; XXX; XXX; XXX; XXX; XXX; XXX; XXX; XXX; XXX; XXX; XXX; XXX; XXX; XXX; XXX;
  XXX; XXX; XXX; XXX; XXX; XXX; XXX; XXX; XXX; XXX; XXX; XXX; XXX; XXX; XXX; XXX;
    3; XXX; XXX; XXX; XXX; XXX; XXX; XXX; XXX; XXX; XXX; XXX; XXX; XXX; XXX; XXX;
    4; XXX; XXX; XXX; XXX; XXX; XXX; XXX;   5; XXX; XXX; XXX;   6; XXX;   7;   8 ].

(** cidr.rs:20 *)
Definition CIDR_BYTE_TO_PREFIX : list N :=
  [0x00; 0x80; 0xC0; 0xE0; 0xF0; 0xF8; 0xFC; 0xFE; 0xFF].

(** cidr.rs:27-56: the loop over the bytes. The index is a u8, the table has 256
    entries, so the lookup never panics; the default of [nth] stands for the
    panic that cannot happen. *)
Fixpoint prefix_loop (bs : list N) (ones_over : bool) (cidr : N) : option N :=
  match bs with
  | [] => Some cidr
  | b :: bs' =>
      let n := nth (N.to_nat b) SUBNET_MASK_BYTE_TO_PREFIX XXX in
      if n =? XXX then None
      else if n =? 8 then
        if ones_over then None else prefix_loop bs' ones_over (cidr + 8)
      else if n =? 0 then prefix_loop bs' true cidr
      else if ones_over then None
      else prefix_loop bs' true (cidr + n)
  end.

(** cidr.rs:24-59 [prefix_from_subnet_mask_bytes]. *)
Definition prefix_from_subnet_mask_bytes (bs : list N) : option N := prefix_loop bs false 0.

(** cidr.rs:62-79 [subnet_mask_bytes_from_prefix]; the recursion is on the
    number of bytes still to be pushed ([byte_count - ret.len()]). In the first
    while loop [prefix] is below 8 when the table is read, so the lookup never
    panics. *)
Fixpoint subnet_mask_bytes_from_prefix (prefix : N) (byte_count : nat) : list N :=
  match byte_count with
  | O => []
  | S bc =>
      if 0 <? prefix then
        if 8 <=? prefix then 0xFF :: subnet_mask_bytes_from_prefix (prefix - 8) bc
        else nth (N.to_nat prefix) CIDR_BYTE_TO_PREFIX 0 :: repeat 0x00 bc
      else repeat 0x00 (S bc)
  end.
