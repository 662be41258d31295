(** * P_Debug: the texts of the derived [Debug] implementations (C97) *)
From Verif Require Import RustBase Addr Net Parse Console Messages Debugging Spec SpecProcess SpecMessages SpecDebug Demo Pf_Debug.

(** ** C97: values printed for debugging *)
(** Either form is written like the value in Rust: names of types, fields and variants,
    numbers, string literals. *)
Theorem C97_spelled : forall (U : Unicode) (d : datum),
  datum_fine d ->
  tokens (debug_text false d) = tokens_of d /\ untrailed (tokens (debug_text true d)) = tokens_of d.
Proof. exact c97_spelled. Qed.
Print Assumptions C97_spelled.
Example C97_spelled_ex :
  let n := new_with_mask (A := addr V4) (ip4 10 1 2 3) (ip4 255 255 0 0) in
  @debug_text no_unicode false (DNet4 n) =
    lit "IpNetwork { base_addr: Ipv4Address { addr_value: 167837696 }, subnet_mask: Ipv4Address { addr_value: 4294901760 }, cidr_prefix: Some(16) }" /\
  @debug_text no_unicode false (DSpecs (Specs4 [])) = lit "Ipv4([])" /\
  @debug_text no_unicode false (DNetspecError (AddressError (ChunkParseError 2 (lit "a""b") IE_InvalidDigit))) =
    lit "Address(ChunkParseError(2, ""a\""b"", ParseIntError { kind: InvalidDigit }))" /\
  tokens_of (DAddrError (ChunkParseError 2 (lit "a""b") IE_Empty)) =
    [Word (lit "ChunkParseError"); Mark "("; Number 2; Mark ","; Text (lit "a""b"); Mark ","; Word (lit "ParseIntError");
     Mark "{"; Word (lit "kind"); Mark ":"; Word (lit "Empty"); Mark "}"; Mark ")"].
Proof. ex. Qed.

(** The texts of different values, also of different types, are different in whichever form. *)
Theorem C97_apart : forall (U U' : Unicode) (f f' : bool) (d d' : datum),
  datum_fine d -> datum_fine d' -> @debug_text U f d = @debug_text U' f' d' -> d = d'.
Proof. exact c97_apart. Qed.
Print Assumptions C97_apart.
Example C97_apart_ex :
  @debug_text no_unicode true (DColor DarkGray) = @debug_text all_unicode false (DColor DarkGray) /\
  @debug_text no_unicode false (DParsed (PAddr4 (ip4 0 0 1 2))) = lit "Ipv4(Ipv4Address { addr_value: 258 })" /\
  @debug_text no_unicode false (DSubnet (PSMask4 (ip4 0 0 1 2))) = lit "Ipv4Mask(Ipv4Address { addr_value: 258 })".
Proof. ex. Qed.

(** The short form is one line; the long one is indented by its brackets, and says the
    same as the short one. Neither contains control characters but for line breaks. *)
Theorem C97_layout : forall (U : Unicode) (d : datum),
  datum_fine d ->
  let ls := pieces "010" (debug_text true d) in
  tidy (debug_text false d) /\ Forall tidy ls /\ aligned 0 ls /\ Forall comma_ends ls /\ one_line ls = debug_text false d.
Proof. exact c97_layout. Qed.
Print Assumptions C97_layout.
Example C97_layout_ex :
  pieces "010" (@debug_text no_unicode true (DSpecs (Specs4 [(ip4 0 0 0 9, new_with_mask (A := addr V4) (ip4 0 0 0 9) (ip4 0 0 0 5))]))) =
    map lit ["Ipv4("; "    ["; "        ("; "            Ipv4Address {"; "                addr_value: 9,"; "            },";
             "            IpNetwork {"; "                base_addr: Ipv4Address {"; "                    addr_value: 1,"; "                },";
             "                subnet_mask: Ipv4Address {"; "                    addr_value: 5,"; "                },";
             "                cidr_prefix: None,"; "            },"; "        ),"; "    ],"; ")"]%string.
Proof. ex. Qed.

(** Errors in messages are printed in the short form. *)
Theorem C97_messages : forall (U : Unicode) (i : int_error) (e : addr_error),
  int_error_debug i = debug_text false (DIntError i) /\ addr_error_debug e = debug_text false (DAddrError e).
Proof. exact c97_messages. Qed.
Print Assumptions C97_messages.
Example C97_messages_ex :
  @message_lines no_unicode (MsgParsing (AddressError (ChunkOutOfRange 2 256 0 255))) =
    [lit "parsing error: failed to parse address: " ++ @debug_text no_unicode false (DAddrError (ChunkOutOfRange 2 256 0 255))] /\
  @debug_text no_unicode false (DAddrError (ChunkOutOfRange 2 256 0 255)) = lit "ChunkOutOfRange(2, 256, 0, 255)".
Proof. ex. Qed.
