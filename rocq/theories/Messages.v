(** * Messages: the wording of the messages on stderr

    Model of the [Display] and [Debug] implementations behind the [eprintln!]
    calls (addr.rs:579-605, mod.rs:76-115, and the calls themselves), and of
    [Debug] for strings in the Rust standard library. *)
From Verif Require Export Console.

(** ** Strings as Unicode text *)
(** Which characters beyond ASCII Rust's [str] [Debug] prints as they are: the
    tables of core::unicode, which change with the Rust version. Left open but for
    the control characters up to U+009F and the no-break space U+00A0, which it
    never prints as they are. *)
Class Unicode : Type := {
  printable : N -> bool;
  printable_law : forall n, printable n = true -> 0xa0 < n
}.

Definition code (c : ascii) : N := N_of_ascii c.
Definition between (lo hi : N) (c : ascii) : bool := (lo <=? code c) && (code c <=? hi).
(** Continuation bytes of UTF-8. *)
Definition cont (c : ascii) : bool := between 0x80 0xbf c.
(** The sequences of two, three and four bytes that are the UTF-8 encoding of one
    character (the table of core::str::validations). *)
Definition utf8_2 (a b : ascii) : bool := between 0xc2 0xdf a && cont b.
Definition utf8_3 (a b c : ascii) : bool :=
  (between 0xe0 0xe0 a && between 0xa0 0xbf b || between 0xe1 0xec a && cont b ||
   between 0xed 0xed a && between 0x80 0x9f b || between 0xee 0xef a && cont b) && cont c.
Definition utf8_4 (a b c d : ascii) : bool :=
  (between 0xf0 0xf0 a && between 0x90 0xbf b || between 0xf1 0xf3 a && cont b ||
   between 0xf4 0xf4 a && between 0x80 0x8f b) && cont c && cont d.
(** The character they encode. *)
Definition code_2 (a b : ascii) : N := (code a - 0xc0) * 64 + (code b - 0x80).
Definition code_3 (a b c : ascii) : N :=
  ((code a - 0xe0) * 64 + (code b - 0x80)) * 64 + (code c - 0x80).
Definition code_4 (a b c d : ascii) : N :=
  (((code a - 0xf0) * 64 + (code b - 0x80)) * 64 + (code c - 0x80)) * 64 + (code d - 0x80).

(** core::str::from_utf8: whether the bytes are the text of a [String]. *)
Fixpoint is_utf8 (s : str) : bool :=
  match s with
  | [] => true
  | a :: s1 =>
      if code a <? 0x80 then is_utf8 s1
      else match s1 with
           | [] => false
           | b :: s2 =>
               if utf8_2 a b then is_utf8 s2
               else match s2 with
                    | [] => false
                    | c :: s3 =>
                        if utf8_3 a b c then is_utf8 s3
                        else match s3 with
                             | [] => false
                             | d :: s4 => if utf8_4 a b c d then is_utf8 s4 else false
                             end
                    end
           end
  end.

Definition backslash : ascii := "\"%char.
Definition quote : ascii := """"%char.
(** [char::escape_unicode]. *)
Definition escape_unicode (n : N) : str := lit "\u{" ++ fmt_hex n ++ lit "}".

Section WithUnicode.
  Context `{Unicode}.

  (** core::char::methods [escape_debug_ext] as [Debug] for [str] calls it (single
      quotes stay, double quotes are escaped), of an ASCII character. *)
  Definition escape_ascii (c : ascii) : str :=
    if Ascii.eqb c "000" then lit "\0"
    else if Ascii.eqb c "009" then lit "\t"
    else if Ascii.eqb c "010" then lit "\n"
    else if Ascii.eqb c "013" then lit "\r"
    else if Ascii.eqb c quote || Ascii.eqb c backslash then [backslash; c]
    else if between 32 126 c then [c]
    else escape_unicode (code c).
  (** The same of another character, whose encoding is [s]. *)
  Definition escape_other (n : N) (s : str) : str :=
    if printable n then s else escape_unicode n.

  (** The characters of a text, escaped. A [String] holds UTF-8 only, so the
      cases that leave a byte alone are not met. *)
  Fixpoint escape_debug (s : str) : str :=
    match s with
    | [] => []
    | a :: s1 =>
        if code a <? 0x80 then escape_ascii a ++ escape_debug s1
        else match s1 with
             | [] => [a]
             | b :: s2 =>
                 if utf8_2 a b then escape_other (code_2 a b) [a; b] ++ escape_debug s2
                 else match s2 with
                      | [] => a :: escape_debug s1
                      | c :: s3 =>
                          if utf8_3 a b c
                          then escape_other (code_3 a b c) [a; b; c] ++ escape_debug s3
                          else match s3 with
                               | [] => a :: escape_debug s1
                               | d :: s4 =>
                                   if utf8_4 a b c d
                                   then escape_other (code_4 a b c d) [a; b; c; d] ++ escape_debug s4
                                   else a :: escape_debug s1
                               end
                      end
             end
    end.
  (** [impl Debug for str]. *)
  Definition debug_str (s : str) : str := quote :: escape_debug s ++ [quote].

  (** ** Errors *)
  Definition fmt_usize (n : nat) : str := fmt_dec (N.of_nat n).

  (** core::num::ParseIntError: [Display]; for num_bigint::ParseBigIntError the
      texts of the two kinds it has are the same. *)
  Definition int_error_text (e : int_error) : str :=
    match e with
    | IE_Empty => lit "cannot parse integer from empty string"
    | IE_InvalidDigit => lit "invalid digit found in string"
    | IE_PosOverflow => lit "number too large to fit in target type"
    end.
  (** core::num::ParseIntError: the derived [Debug]. *)
  Definition int_error_debug (e : int_error) : str :=
    lit "ParseIntError { kind: " ++
    match e with
    | IE_Empty => lit "Empty"
    | IE_InvalidDigit => lit "InvalidDigit"
    | IE_PosOverflow => lit "PosOverflow"
    end ++ lit " }".

  (** addr.rs:588-605: [Display]. *)
  Definition addr_error_text (e : addr_error) : str :=
    match e with
    | UnknownAddressType => lit "unknown IP address type"
    | IncorrectChunkCount got expected =>
        lit "IP address has " ++ fmt_usize got ++ lit " chunk(s); expected " ++ fmt_usize expected
    | EmptyChunk i => lit "IP address chunk with index " ++ fmt_usize i ++ lit " is empty"
    | ChunkParseError i chunk error =>
        lit "failed to parse IP address chunk with index " ++ fmt_usize i ++ lit " (" ++
        debug_str chunk ++ lit "): " ++ int_error_text error
    | ChunkOutOfRange i got min max =>
        lit "IP address chunk with index " ++ fmt_usize i ++ lit " (" ++ fmt_dec got ++
        lit ") is out of range " ++ fmt_dec min ++ lit " <= n <= " ++ fmt_dec max ++ lit " chunk"
    | TooManyShorteningElements got expected_max =>
        lit "IP address has " ++ fmt_usize got ++ lit " shortening elements; expected maximum " ++
        fmt_usize expected_max
    end.
  (** addr.rs:579: the derived [Debug]. *)
  Definition addr_error_debug (e : addr_error) : str :=
    match e with
    | UnknownAddressType => lit "UnknownAddressType"
    | IncorrectChunkCount got expected =>
        lit "IncorrectChunkCount(" ++ fmt_usize got ++ lit ", " ++ fmt_usize expected ++ lit ")"
    | EmptyChunk i => lit "EmptyChunk(" ++ fmt_usize i ++ lit ")"
    | ChunkParseError i chunk error =>
        lit "ChunkParseError(" ++ fmt_usize i ++ lit ", " ++ debug_str chunk ++ lit ", " ++
        int_error_debug error ++ lit ")"
    | ChunkOutOfRange i got min max =>
        lit "ChunkOutOfRange(" ++ fmt_usize i ++ lit ", " ++ fmt_dec got ++ lit ", " ++
        fmt_dec min ++ lit ", " ++ fmt_dec max ++ lit ")"
    | TooManyShorteningElements got expected_max =>
        lit "TooManyShorteningElements(" ++ fmt_usize got ++ lit ", " ++ fmt_usize expected_max ++ lit ")"
    end.
  (** mod.rs:99-115: [Display], which shows the inner errors with [Debug]. *)
  Definition netspec_error_text (e : netspec_error) : str :=
    match e with
    | Unrecognized spec => lit "unrecognized network specification: " ++ debug_str spec
    | AddressError e => lit "failed to parse address: " ++ addr_error_debug e
    | MaskError e => lit "failed to parse mask: " ++ addr_error_debug e
    | CidrParseError e => lit "failed to parse CIDR prefix: " ++ int_error_debug e
    | CidrRange got max =>
        lit "CIDR prefix " ++ fmt_dec got ++ lit " is greater than the maximum (" ++ fmt_dec max ++ lit ")"
    end.

  (** main.rs:30-45. The crate only compiles with the num-bigint feature (see
      ShowNet.v), so the line about split is always there. *)
  Definition usage_lines : list str :=
    [ lit "Usage: ripcalc IPADDRESS/SUBNET...";
      lit "       ripcalc -m|--minimize IPADDRESS/SUBNET...";
      lit "       ripcalc -d|--derange IPADDRESS IPADDRESS...";
      lit "       ripcalc -s|--split IPADDRESS/CIDRPREFIX HOSTCOUNT...";
      lit "       ripcalc -r|--resize IPADDRESS/SUBNET SUBNET";
      lit "       ripcalc -e|--enumerate IPADDRESS/SUBNET";
      [];
      lit "SUBNET is one of: SUBNETMASK";
      lit "                  CIDRPREFIX";
      lit "                  -WILDCARD";
      [];
      lit "IPv4 and IPv6 are supported, but cannot be mixed within an invocation." ].

  (** The lines of a message. *)
  Definition message_lines (m : errmsg) : list str :=
    match m with
    | MsgUsage => usage_lines
    | MsgFirstAddr e => [lit "failed to parse first address: " ++ addr_error_text e]      (* derange.rs:19 *)
    | MsgSecondAddr e => [lit "failed to parse second address: " ++ addr_error_text e]    (* derange.rs:26 *)
    | MsgVersions => [lit "both addresses must be the same version"]                      (* derange.rs:32 *)
    | MsgMixing => [lit "mixing IPv4 and IPv6 is not supported"]                          (* minimize.rs:21 *)
    | MsgParsing e => [lit "parsing error: " ++ netspec_error_text e]                     (* minimize.rs:45 *)
    | MsgHostCount s e =>                                                                 (* split.rs:27 *)
        [lit "failed to parse host count " ++ debug_str s ++ lit ": " ++ int_error_text e]
    | MsgHostCountNegative => [lit "host counts must be zero or greater"]                 (* split.rs:32 *)
    | MsgSplitNetspec s e =>                                                              (* split.rs:40 *)
        [lit "failed to parse network specification " ++ debug_str s ++ lit ": " ++ netspec_error_text e]
    | MsgNetspec s e =>                                                                   (* resize.rs:22 *)
        [lit "failed to parse network spec " ++ debug_str s ++ lit ": " ++ netspec_error_text e]
    | MsgSubnet s e =>                                                                    (* resize.rs:28,53 *)
        [lit "failed to parse subnet " ++ debug_str s ++ lit ": " ++ netspec_error_text e]
    | MsgCidrMax got max =>                                                               (* resize.rs:33,58 *)
        [lit "CIDR value " ++ fmt_dec got ++ lit " is greater than maximum for " ++
         (if max =? 32 then lit "IPv4 (32)" else lit "IPv6 (128)")]
    | MsgMask6ForNet4 => [lit "cannot resize an IPv4 subnet to an IPv6 mask"]             (* resize.rs:43 *)
    | MsgMask4ForNet6 => [lit "cannot resize an IPv6 subnet to an IPv4 mask"]             (* resize.rs:68 *)
    | MsgNetwork s e =>                                                                   (* enumerate.rs:62 *)
        [lit "failed to parse network " ++ debug_str s ++ lit ": " ++ netspec_error_text e]
    | MsgError e => [netspec_error_text e]                                                (* show_net.rs:28 *)
    end.
  (** As [eprintln!] writes them. *)
  Definition message_text (m : errmsg) : str := flat_map (fun l => l ++ newline) (message_lines m).
End WithUnicode.
