(** * Addr: model of /repo/src/addr.rs *)
From Verif Require Export RustBase.

(** addr.rs:579-587 [enum IpAddressParseError]. For its Display text
    (588-605) see Messages.v. *)
Inductive addr_error :=
| UnknownAddressType
| IncorrectChunkCount (got expected : nat)
| EmptyChunk (i : nat)
| ChunkParseError (i : nat) (chunk : str) (e : int_error)
| ChunkOutOfRange (i : nat) (got lo hi : N)
| TooManyShorteningElements (got expected_max : nat).

(** addr.rs:11-47 [trait IpAddress] together with its supertraits: BitAnd,
    BitOr, BitXor, Display, Ord/Eq. (What hashers are fed is in Hashing.v: hash tables are
    abstracted by [hash_iter].) Methods whose code can panic or fail to return
    have a [res] result. *)
Class IpAddress (A : Type) : Type := {
  byte_count : A -> nat;
  count_ones : A -> N;
  count_zeros : A -> N;
  to_bytes : A -> list N;
  from_bytes : list N -> option A;
  bitwise_negate : A -> A;
  add_addr : A -> A -> option A;
  add_offset : A -> Z -> res (option A);
  subtract_addr : A -> A -> option A;
  subtract_offset : A -> Z -> res (option A);
  band : A -> A -> A;
  bor : A -> A -> A;
  bxor : A -> A -> A;
  display : A -> str;
  acmp : A -> A -> comparison;
  aeqb : A -> A -> bool
}.

(** [<], [<=], [>] and std::cmp::{min,max} derived from Ord. *)
Definition altb {A} `{IpAddress A} (a b : A) : bool :=
  match acmp a b with Lt => true | _ => false end.
Definition aleb {A} `{IpAddress A} (a b : A) : bool :=
  match acmp a b with Gt => false | _ => true end.
Definition agtb {A} `{IpAddress A} (a b : A) : bool := altb b a.
Definition amin {A} `{IpAddress A} (a b : A) : A :=
  match acmp a b with Gt => b | _ => a end.
Definition amax {A} `{IpAddress A} (a b : A) : A :=
  match acmp a b with Gt => a | _ => b end.

(** ** IPv4 *)

(** addr.rs:49-53 [struct Ipv4Address]: a u32. *)
Record ipv4 := Ipv4 { addr_value : N }.

(** addr.rs:69-78 [Ipv4Address::add_internal]. i64 sums of a u32 and a value of
    magnitude below 2^32 cannot overflow, so Z arithmetic is exact. *)
Definition v4_add_internal (addr64 offset64 : Z) : option ipv4 :=
  let sum := (addr64 + offset64)%Z in
  if (sum <? 0)%Z then None
  else if (0xFFFFFFFF <? sum)%Z then None
  else Some (Ipv4 (Z.to_N sum)).

(** addr.rs:82. *)
Definition v4_byte_count (a : ipv4) : nat := 4.

(** addr.rs:84-85. *)
Definition v4_count_ones (a : ipv4) : N := popcount (addr_value a).
Definition v4_count_zeros (a : ipv4) : N := 32 - popcount (addr_value a).

(** addr.rs:87-94. The [try_into().unwrap()] conversions to u8 follow [& 0xFF]
    and cannot fail. *)
Definition v4_to_bytes (a : ipv4) : list N :=
  [ N.land (N.shiftr (addr_value a) 24) 0xFF;
    N.land (N.shiftr (addr_value a) 16) 0xFF;
    N.land (N.shiftr (addr_value a) 8) 0xFF;
    N.land (N.shiftr (addr_value a) 0) 0xFF ].

(** addr.rs:96-108. *)
Definition v4_from_bytes (bytes : list N) : option ipv4 :=
  match bytes with
  | [b0; b1; b2; b3] =>
      Some (Ipv4 (N.lor (N.lor (N.lor (shl32 b0 24) (shl32 b1 16)) (shl32 b2 8)) (shl32 b3 0)))
  | _ => None
  end.

(** addr.rs:110-112. *)
Definition v4_negate (a : ipv4) : ipv4 := Ipv4 (N.lxor (addr_value a) 0xFFFFFFFF).

(** addr.rs:114-116. *)
Definition v4_add_addr (a b : ipv4) : option ipv4 :=
  v4_add_internal (Z.of_N (addr_value a)) (Z.of_N (addr_value b)).
(** addr.rs:118-120. *)
Definition v4_add_offset (a : ipv4) (offset : Z) : option ipv4 :=
  v4_add_internal (Z.of_N (addr_value a)) offset.
(** addr.rs:122-125. *)
Definition v4_subtract_addr (a b : ipv4) : option ipv4 :=
  v4_add_internal (Z.of_N (addr_value a)) (- Z.of_N (addr_value b))%Z.
(** addr.rs:127-130 (the negation is in i64 and exact). *)
Definition v4_subtract_offset (a : ipv4) (offset : Z) : option ipv4 :=
  v4_add_internal (Z.of_N (addr_value a)) (- offset)%Z.

(** addr.rs:143-157: the [for i in 0..4] loop over the chunks, [i] being the
    index of the head of [chunks]. *)
Fixpoint v4_parse_loop (i : nat) (chunks : list str) (addr_val : N) : result N addr_error :=
  match chunks with
  | [] => ROk addr_val
  | chunk :: rest =>
      let shift_count := 24 - N.of_nat i * 8 in
      match chunk with
      | [] => RErr (EmptyChunk i)
      | _ =>
          rbind (map_err (ChunkParseError i chunk) (parse_uint 10 u32_max chunk))
            (fun chunk_val =>
               if 255 <? chunk_val then RErr (ChunkOutOfRange i chunk_val 0 255)
               else v4_parse_loop (S i) rest (N.lor addr_val (shl32 chunk_val shift_count)))
      end
  end.

(** addr.rs:136-160 [Ipv4Address::from_str]. *)
Definition v4_from_str (s : str) : result ipv4 addr_error :=
  let chunks := split_on "." s in
  if negb (Nat.eqb (List.length chunks) 4)
  then RErr (IncorrectChunkCount (List.length chunks) 4)
  else rbind (v4_parse_loop 0 chunks 0) (fun v => ROk (Ipv4 v)).

(** addr.rs:163-168 [Display for Ipv4Address]: "{}.{}.{}.{}". *)
Definition v4_display (a : ipv4) : str :=
  join (lit ".") (map fmt_dec (v4_to_bytes a)).

(** addr.rs:170-192. *)
Definition v4_and (a b : ipv4) : ipv4 := Ipv4 (N.land (addr_value a) (addr_value b)).
Definition v4_or (a b : ipv4) : ipv4 := Ipv4 (N.lor (addr_value a) (addr_value b)).
Definition v4_xor (a b : ipv4) : ipv4 := Ipv4 (N.lxor (addr_value a) (addr_value b)).

(** addr.rs:50 derived Ord / Eq. *)
Definition v4_cmp (a b : ipv4) : comparison := N.compare (addr_value a) (addr_value b).
Definition v4_eqb (a b : ipv4) : bool := N.eqb (addr_value a) (addr_value b).

(** addr.rs:81-131 [impl IpAddress for Ipv4Address]. *)
#[global] Instance ipv4_ops : IpAddress ipv4 := {
  byte_count := v4_byte_count;
  count_ones := v4_count_ones;
  count_zeros := v4_count_zeros;
  to_bytes := v4_to_bytes;
  from_bytes := v4_from_bytes;
  bitwise_negate := v4_negate;
  add_addr := v4_add_addr;
  add_offset := fun a o => Ret (v4_add_offset a o);
  subtract_addr := v4_subtract_addr;
  subtract_offset := fun a o => Ret (v4_subtract_offset a o);
  band := v4_and;
  bor := v4_or;
  bxor := v4_xor;
  display := v4_display;
  acmp := v4_cmp;
  aeqb := v4_eqb
}.

(** ** IPv6 *)

(** addr.rs:194-199 [struct Ipv6Address]: two u64. *)
Record ipv6 := Ipv6 { top_half : N; bottom_half : N }.

(** addr.rs:230-241 [to_chunks] (the conversions to u16 follow [& 0xFFFF]). *)
Definition v6_to_chunks (a : ipv6) : list N :=
  [ N.land (N.shiftr (top_half a) 48) 0xFFFF;
    N.land (N.shiftr (top_half a) 32) 0xFFFF;
    N.land (N.shiftr (top_half a) 16) 0xFFFF;
    N.land (N.shiftr (top_half a) 0) 0xFFFF;
    N.land (N.shiftr (bottom_half a) 48) 0xFFFF;
    N.land (N.shiftr (bottom_half a) 32) 0xFFFF;
    N.land (N.shiftr (bottom_half a) 16) 0xFFFF;
    N.land (N.shiftr (bottom_half a) 0) 0xFFFF ].

(** addr.rs:245-263 [from_chunks]. *)
Definition v6_from_chunks (chunks : list N) : option ipv6 :=
  match chunks with
  | [c0; c1; c2; c3; c4; c5; c6; c7] =>
      Some (Ipv6
        (N.lor (N.lor (N.lor (shl64 c0 48) (shl64 c1 32)) (shl64 c2 16)) (shl64 c3 0))
        (N.lor (N.lor (N.lor (shl64 c4 48) (shl64 c5 32)) (shl64 c6 16)) (shl64 c7 0)))
  | _ => None
  end.

(** addr.rs:220-227 [to_full_string]: the loop runs over the indices of the
    still empty [chunk_strings], i.e. [0..0]. Formatting with {:04x} is
    [fmt_hex] padded with zeros to four characters. *)
Definition fmt_hex4 (n : N) : str :=
  let h := fmt_hex n in repeat "0"%char (4 - List.length h) ++ h.
Definition v6_to_full_string (a : ipv6) : str :=
  let chunks := v6_to_chunks a in
  let chunk_strings : list str := [] in
  let chunk_strings :=
    fold_left (fun cs i => cs ++ [fmt_hex4 (nth i chunks 0)])
              (seq 0 (List.length chunk_strings)) chunk_strings in
  join (lit ":") chunk_strings.

(** addr.rs:265-274 [add_internal]. *)
Definition v6_add_internal (addrtop64 addrbot64 offtop64 offbot64 : N) : option ipv6 :=
  let bot_sum := wrapping_add64 addrbot64 offbot64 in
  let is_carry := (bot_sum <? addrbot64) || (bot_sum <? offbot64) in
  match checked_add64 addrtop64 offtop64 with
  | None => None
  | Some top_sum =>
      if is_carry then
        match checked_add64 top_sum 1 with
        | None => None
        | Some top_sum => Some (Ipv6 top_sum bot_sum)
        end
      else Some (Ipv6 top_sum bot_sum)
  end.

(** addr.rs:276-291 [sub_internal]. *)
Definition v6_sub_internal (addrtop64 addrbot64 offtop64 offbot64 : N) : option ipv6 :=
  let bot_diff := wrapping_sub64 addrbot64 offbot64 in
  let is_borrow :=
    (addrtop64 <? offtop64) || ((addrtop64 =? offtop64) && (addrbot64 <? offbot64)) in
  match checked_sub64 addrtop64 offtop64 with
  | None => None
  | Some top_diff =>
      if is_borrow then
        match checked_sub64 top_diff 1 with
        | None => None
        | Some top_diff => Some (Ipv6 top_diff bot_diff)
        end
      else Some (Ipv6 top_diff bot_diff)
  end.

(** addr.rs:295-298. *)
Definition v6_byte_count (a : ipv6) : nat := 16.
Definition v6_count_ones (a : ipv6) : N := popcount (top_half a) + popcount (bottom_half a).
Definition v6_count_zeros (a : ipv6) : N :=
  (64 - popcount (top_half a)) + (64 - popcount (bottom_half a)).

(** addr.rs:300-319. *)
Definition v6_to_bytes (a : ipv6) : list N :=
  [ N.land (N.shiftr (top_half a) 56) 0xFF;
    N.land (N.shiftr (top_half a) 48) 0xFF;
    N.land (N.shiftr (top_half a) 40) 0xFF;
    N.land (N.shiftr (top_half a) 32) 0xFF;
    N.land (N.shiftr (top_half a) 24) 0xFF;
    N.land (N.shiftr (top_half a) 16) 0xFF;
    N.land (N.shiftr (top_half a) 8) 0xFF;
    N.land (N.shiftr (top_half a) 0) 0xFF;
    N.land (N.shiftr (bottom_half a) 56) 0xFF;
    N.land (N.shiftr (bottom_half a) 48) 0xFF;
    N.land (N.shiftr (bottom_half a) 40) 0xFF;
    N.land (N.shiftr (bottom_half a) 32) 0xFF;
    N.land (N.shiftr (bottom_half a) 24) 0xFF;
    N.land (N.shiftr (bottom_half a) 16) 0xFF;
    N.land (N.shiftr (bottom_half a) 8) 0xFF;
    N.land (N.shiftr (bottom_half a) 0) 0xFF ].

(** addr.rs:325-334, 335-344: one half of [from_bytes]. *)
Definition v6_half (b0 b1 b2 b3 b4 b5 b6 b7 : N) : N :=
  N.lor (N.lor (N.lor (N.lor (N.lor (N.lor (N.lor
    (shl64 b0 56) (shl64 b1 48)) (shl64 b2 40)) (shl64 b3 32))
    (shl64 b4 24)) (shl64 b5 16)) (shl64 b6 8)) (shl64 b7 0).

(** addr.rs:321-347. *)
Definition v6_from_bytes (bytes : list N) : option ipv6 :=
  match bytes with
  | [b0; b1; b2; b3; b4; b5; b6; b7; b8; b9; b10; b11; b12; b13; b14; b15] =>
      Some (Ipv6 (v6_half b0 b1 b2 b3 b4 b5 b6 b7) (v6_half b8 b9 b10 b11 b12 b13 b14 b15))
  | _ => None
  end.

(** addr.rs:349-354. *)
Definition v6_negate (a : ipv6) : ipv6 :=
  Ipv6 (N.lxor (top_half a) 0xFFFFFFFFFFFFFFFF) (N.lxor (bottom_half a) 0xFFFFFFFFFFFFFFFF).

(** addr.rs:356-361, 374-379. *)
Definition v6_add_addr (a b : ipv6) : option ipv6 :=
  v6_add_internal (top_half a) (bottom_half a) (top_half b) (bottom_half b).
Definition v6_subtract_addr (a b : ipv6) : option ipv6 :=
  v6_sub_internal (top_half a) (bottom_half a) (top_half b) (bottom_half b).

(** addr.rs:363-372 [add_offset] ([sub = false]) and 381-390 [subtract_offset]
    ([sub = true]), which call each other on negative offsets. The recursion
    depth is [fuel]; running out of it is [Diverge] (a stack overflow). *)
Fixpoint v6_offset `{Rust} (fuel : nat) (sub : bool) (a : ipv6) (offset : Z) : res (option ipv6) :=
  match fuel with
  | O => Diverge
  | S f =>
      if (offset <? 0)%Z then
        o <- i32_neg offset ;; v6_offset f (negb sub) a o
      else
        Ret ((if sub then v6_sub_internal else v6_add_internal)
               (top_half a) (bottom_half a) 0 (Z.to_N offset))
  end.
(** Depth given to the recursion by the model; any depth of 2 or more gives the
    same results (theorem C09_recursion_depth). *)
Definition v6_offset_depth : nat := 1000.
Definition v6_add_offset `{Rust} (a : ipv6) (offset : Z) : res (option ipv6) :=
  v6_offset v6_offset_depth false a offset.
Definition v6_subtract_offset `{Rust} (a : ipv6) (offset : Z) : res (option ipv6) :=
  v6_offset v6_offset_depth true a offset.

(** [v[i] = x]. *)
Fixpoint set_index {T : Type} (l : list T) (i : nat) (x : T) : res (list T) :=
  match l, i with
  | [], _ => Panic
  | _ :: l', O => Ret (x :: l')
  | y :: l', S i' => l'' <- set_index l' i' x ;; Ret (y :: l'')
  end.

Definition is_empty (s : str) : bool := match s with [] => true | _ => false end.

(** addr.rs:437-442 "copy from front"; [i] is the index of the head of [chunks]. *)
Fixpoint v6_copy_front (chunks : list str) (i : nat) (actual : list str) : res (list str) :=
  match chunks with
  | [] => Ret actual
  | c :: cs =>
      if is_empty c then Ret actual
      else actual' <- set_index actual i c ;; v6_copy_front cs (S i) actual'
  end.

(** addr.rs:445-451 "copy from back"; called with the reversed chunks, so that
    the head of the list is [chunks[chunks.len() - i - 1]]. The usize expression
    [actual_chunks.len() - i - 1] does not underflow since i < chunks.len() <= 8
    (checked here through [Panic]). *)
Fixpoint v6_copy_back (rchunks : list str) (i : nat) (actual : list str) : res (list str) :=
  match rchunks with
  | [] => Ret actual
  | c :: cs =>
      if is_empty c then Ret actual
      else if Nat.ltb (List.length actual) (i + 1) then Panic
      else actual' <- set_index actual (List.length actual - i - 1) c ;;
           v6_copy_back cs (S i) actual'
  end.

(** addr.rs:458-474: the [for i in 0..8] loop; [n] iterations are left. *)
Fixpoint v6_value_loop (n i : nat) (actual : list str) (top bottom : N)
  : res (result ipv6 addr_error) :=
  match n with
  | O => Ret (ROk (Ipv6 top bottom))
  | S n' =>
      let shift_count_within_half := (112 - N.of_nat i * 16) mod 64 in
      chunk <- index actual i ;;
      match parse_uint 16 u16_max chunk with
      | RErr e => Ret (RErr (ChunkParseError i chunk e))
      | ROk v =>
          if Nat.ltb i 4
          then v6_value_loop n' (S i) actual (N.lor top (shl64 v shift_count_within_half)) bottom
          else v6_value_loop n' (S i) actual top (N.lor bottom (shl64 v shift_count_within_half))
      end
  end.

(** addr.rs:396-477 [Ipv6Address::from_str]. *)
Definition v6_from_str (s : str) : res (result ipv6 addr_error) :=
  let addr_str := if starts_with_char ":" s then "0"%char :: s else s in
  let addr_str := if ends_with_char ":" addr_str then addr_str ++ lit "0" else addr_str in
  let chunks := split_on ":" addr_str in
  if Nat.ltb 8 (List.length chunks)
  then Ret (RErr (IncorrectChunkCount (List.length chunks) 8))
  else
    let shortening_count := List.length (filter is_empty chunks) in
    if Nat.ltb 1 shortening_count
    then Ret (RErr (TooManyShorteningElements shortening_count 1))
    else if Nat.eqb shortening_count 0 then
      if negb (Nat.eqb (List.length chunks) 8)
      then Ret (RErr (IncorrectChunkCount (List.length chunks) 8))
      else v6_value_loop 8 0 chunks 0 0
    else
      let actual := repeat (lit "0") 8 in
      actual <- v6_copy_front chunks 0 actual ;;
      actual <- v6_copy_back (rev chunks) 0 actual ;;
      v6_value_loop 8 0 actual 0 0.

(** addr.rs:499-505: end [j] of the run of zero chunks (inner while loop;
    chunks always has 8 elements, so [nth]'s default is never used; each
    iteration increments j < 8, so fuel 8 is never exhausted). *)
Fixpoint v6_run_end (fuel : nat) (chunks : list N) (j : nat) : nat :=
  match fuel with
  | O => j
  | S f => if Nat.ltb j 8
           then if nth j chunks 0 =? 0 then v6_run_end f chunks (S j) else j
           else j
  end.

(** addr.rs:489-515: search for the first longest run of zero chunks; result is
    (zero_index, zero_length). Each iteration increments i, so fuel 9 is never
    exhausted. *)
Fixpoint v6_scan (fuel : nat) (chunks : list N) (i : nat) (zi : option nat) (zl : nat)
  : option nat * nat :=
  match fuel with
  | O => (zi, zl)
  | S f =>
      if Nat.ltb i 8 then
        if negb (nth i chunks 0 =? 0) then v6_scan f chunks (S i) zi zl
        else
          let j := v6_run_end 8 chunks (S i) in
          if Nat.ltb zl (j - i) then v6_scan f chunks j (Some i) (j - i)
          else v6_scan f chunks j zi zl
      else (zi, zl)
  end.

(** addr.rs:517-540: the list of chunk strings. *)
Fixpoint v6_emit (fuel : nat) (chunks : list N) (zi : option nat) (zl : nat) (i : nat) : list str :=
  match fuel with
  | O => []
  | S f =>
      if Nat.ltb i 8 then
        if match zi with Some z => Nat.eqb z i | None => false end then
          (if Nat.eqb i 0 then [[]] else [])
          ++ [[]]
          ++ (if Nat.eqb (i + zl) 8 then [[]] else [])
          ++ v6_emit f chunks zi zl (i + zl)
        else fmt_hex (nth i chunks 0) :: v6_emit f chunks zi zl (S i)
      else []
  end.

(** addr.rs:480-544 [Display for Ipv6Address]. *)
Definition v6_display (a : ipv6) : str :=
  if (top_half a =? 0) && (bottom_half a =? 0) then lit "::"
  else
    let chunks := v6_to_chunks a in
    let '(zi, zl) := v6_scan 9 chunks 0 None 0 in
    join (lit ":") (v6_emit 9 chunks zi zl 0).

(** addr.rs:546-577. *)
Definition v6_and (a b : ipv6) : ipv6 :=
  Ipv6 (N.land (top_half a) (top_half b)) (N.land (bottom_half a) (bottom_half b)).
Definition v6_or (a b : ipv6) : ipv6 :=
  Ipv6 (N.lor (top_half a) (top_half b)) (N.lor (bottom_half a) (bottom_half b)).
Definition v6_xor (a b : ipv6) : ipv6 :=
  Ipv6 (N.lxor (top_half a) (top_half b)) (N.lxor (bottom_half a) (bottom_half b)).

(** addr.rs:195 derived Ord (lexicographic in field order) / Eq. *)
Definition v6_cmp (a b : ipv6) : comparison :=
  match N.compare (top_half a) (top_half b) with
  | Eq => N.compare (bottom_half a) (bottom_half b)
  | c => c
  end.
Definition v6_eqb (a b : ipv6) : bool :=
  N.eqb (top_half a) (top_half b) && N.eqb (bottom_half a) (bottom_half b).

(** addr.rs:294-391 [impl IpAddress for Ipv6Address]. *)
#[global] Instance ipv6_ops `{Rust} : IpAddress ipv6 := {
  byte_count := v6_byte_count;
  count_ones := v6_count_ones;
  count_zeros := v6_count_zeros;
  to_bytes := v6_to_bytes;
  from_bytes := v6_from_bytes;
  bitwise_negate := v6_negate;
  add_addr := v6_add_addr;
  add_offset := v6_add_offset;
  subtract_addr := v6_subtract_addr;
  subtract_offset := v6_subtract_offset;
  band := v6_and;
  bor := v6_or;
  bxor := v6_xor;
  display := v6_display;
  acmp := v6_cmp;
  aeqb := v6_eqb
}.
