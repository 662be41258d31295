(** * Properties of network specifications and arguments: C29 to C34 *)
From Verif Require Import RustBase Addr Net Parse Spec SpecText Demo Pf_Netspec.

(** ** C29: the four ways to write a network *)
Theorem C29_same_network : forall (R : Rust) (F : family) (a m w : addr F) (p : N) (A P Q M W : str),
  addr_shape F A -> reads F A a -> p <= width F ->
  numeral 10 P = Some p -> numeral 10 Q = Some (width F - p) ->
  mask_shape F M -> reads F M m -> value m = prefix_mask F p ->
  mask_shape F W -> reads F W w -> value w = 2 ^ width F - 1 - prefix_mask F p ->
  exists n : net F, is_cidr n p /\ member n a /\
    parse_netspec (spec_text A false P) = Ret (ROk (spec_of F a n)) /\
    parse_netspec (spec_text A true Q) = Ret (ROk (spec_of F a n)) /\
    parse_netspec (spec_text A false M) = Ret (ROk (spec_of F a n)) /\
    parse_netspec (spec_text A true W) = Ret (ROk (spec_of F a n)).
Proof. exact c29_same_network. Qed.
Print Assumptions C29_same_network.
Example C29_same_network_ex :
  let n := Ret (ROk (Spec4 (ip4 10 1 2 3) (@new_with_mask (addr V4) ipv4_ops (ip4 10 1 2 3) (ip4 255 255 240 0)))) in
  parse_netspec (H := debug_env) (lit "10.1.2.3/20") = n /\
  parse_netspec (H := debug_env) (lit "10.1.2.3/-12") = n /\
  parse_netspec (H := debug_env) (lit "10.1.2.3/255.255.240.0") = n /\
  parse_netspec (H := debug_env) (lit "10.1.2.3/-0.0.15.255") = n.
Proof. ex. Qed.

Theorem C29_printed_mask_v6 : forall (m : addr V6) (p : N),
  valid m -> p <= 128 -> value m = prefix_mask V6 p ->
  (unreadable V6 m <-> 97 <= p <= 112).
Proof. exact c29_printed_mask_v6. Qed.
Print Assumptions C29_printed_mask_v6.
Example C29_printed_mask_v6_ex :
  v6_display (ip6 0xffff 0xffff 0xffff 0xffff 0xffff 0xffff 0xffff 0) = lit "ffff:ffff:ffff:ffff:ffff:ffff:ffff::" /\
  parse_netspec (H := debug_env) (lit "1::2/ffff:ffff:ffff:ffff:ffff:ffff:ffff::") =
    Ret (RErr (MaskError (IncorrectChunkCount 9 8))).
Proof. ex. Qed.

Theorem C29_printed_wildcard_v6 : forall (m : addr V6) (p : N),
  valid m -> p <= 128 -> value m = 2 ^ 128 - 1 - prefix_mask V6 p ->
  (unreadable V6 m <-> 16 <= p <= 31).
Proof. exact c29_printed_wildcard_v6. Qed.
Print Assumptions C29_printed_wildcard_v6.
Example C29_printed_wildcard_v6_ex :
  parse_netspec (H := debug_env) (lit "1::2/-::ffff:ffff:ffff:ffff:ffff:ffff:ffff") =
    Ret (RErr (MaskError (IncorrectChunkCount 9 8))).
Proof. ex. Qed.

(** ** C30: networks as text *)
Theorem C30_display : forall (R : Rust) (F : family) (n : net F),
  wf_net n ->
  (forall p, cidr_prefix n = Some p ->
     exists P, usual 10 p P /\ net_display n = spec_text (display (base_addr n)) false P) /\
  (cidr_prefix n = None ->
     net_display n = spec_text (display (base_addr n)) false (display (subnet_mask n))).
Proof. exact c30_display. Qed.
Print Assumptions C30_display.
Example C30_display_ex :
  @net_display (addr V4) ipv4_ops (new_with_mask (ip4 10 1 2 3) (ip4 255 255 240 0)) = lit "10.1.0.0/20" /\
  @net_display (addr V4) ipv4_ops (new_with_mask (ip4 10 1 2 3) (ip4 255 0 255 0)) = lit "10.0.2.0/255.0.255.0".
Proof. ex. Qed.

Theorem C30_roundtrip : forall (R : Rust) (F : family) (n : net F),
  wf_net n -> ~ unreadable F (base_addr n) ->
  (cidr_prefix n = None -> ~ unreadable F (subnet_mask n)) ->
  parse_netspec (net_display n) = Ret (ROk (spec_of F (base_addr n) n)).
Proof. exact c30_roundtrip. Qed.
Print Assumptions C30_roundtrip.
Example C30_roundtrip_ex :
  let n := @new_with_mask (addr V6) (addr_ops (H := debug_env) V6) (ip6 0x2001 0xdb8 1 0 3 0 0 0) (ip6 0xffff 0xffff 0 0xffff 0 0 0 0) in
  @net_display (addr V6) (addr_ops (H := debug_env) V6) n = lit "2001:db8::/ffff:ffff:0:ffff::" /\
  parse_netspec (H := debug_env) (lit "2001:db8::/ffff:ffff:0:ffff::") = Ret (ROk (Spec6 (base_addr n) n)).
Proof. ex. Qed.

Theorem C30_roundtrip_v4 : forall (R : Rust) (n : net V4),
  wf_net n -> parse_netspec (net_display n) = Ret (ROk (Spec4 (base_addr n) n)).
Proof. exact c30_roundtrip_v4. Qed.
Print Assumptions C30_roundtrip_v4.
Example C30_roundtrip_v4_ex :
  let n := @new_with_mask (addr V4) ipv4_ops (ip4 10 1 2 3) (ip4 255 0 255 0) in
  parse_netspec (H := debug_env) (@net_display (addr V4) ipv4_ops n) = Ret (ROk (Spec4 (base_addr n) n)).
Proof. ex. Qed.

Theorem C30_unreadable : forall (R : Rust) (F : family) (n : net F),
  wf_net n ->
  (unreadable F (base_addr n) ->
     parse_netspec (net_display n) = Ret (RErr (AddressError (IncorrectChunkCount 9 8)))) /\
  (~ unreadable F (base_addr n) -> cidr_prefix n = None -> unreadable F (subnet_mask n) ->
     parse_netspec (net_display n) = Ret (RErr (MaskError (IncorrectChunkCount 9 8)))).
Proof. exact c30_unreadable. Qed.
Print Assumptions C30_unreadable.
Example C30_unreadable_ex :
  let n := @new_with_mask (addr V6) (addr_ops (H := debug_env) V6) (ip6 0 1 2 3 4 5 6 7) (ip6 0xffff 0xffff 0xffff 0xffff 0xffff 0xffff 0xffff 0xffff) in
  @net_display (addr V6) (addr_ops (H := debug_env) V6) n = lit "::1:2:3:4:5:6:7/128" /\
  parse_netspec (H := debug_env) (lit "::1:2:3:4:5:6:7/128") = Ret (RErr (AddressError (IncorrectChunkCount 9 8))).
Proof. ex. Qed.

Theorem C30_always_roundtrips_refuted : forall (R : Rust), exists n : net V6,
  wf_net n /\ forall a n', parse_netspec (net_display n) <> Ret (ROk (spec_of V6 a n')).
Proof. exact c30_always_roundtrips_refuted. Qed.
Print Assumptions C30_always_roundtrips_refuted.

(** ** C31: parsed networks *)
Theorem C31_returns : forall (R : Rust) (s : str), exists r, parse_netspec s = Ret r.
Proof. exact c31_returns. Qed.
Print Assumptions C31_returns.
Example C31_returns_ex :
  parse_netspec (H := debug_env) (lit "10/8") = Ret (RErr (AddressError (IncorrectChunkCount 1 8))).
Proof. ex. Qed.

Theorem C31_well_formed : forall (R : Rust) (F : family) (s : str) (a : addr F) (n : net F),
  parse_netspec s = Ret (ROk (spec_of F a n)) ->
  valid a /\ wf_net n /\ member n a /\
  value (base_addr n) = N.land (value a) (value (subnet_mask n)) /\
  (forall p, cidr_prefix n = Some p -> p <= width F).
Proof. exact c31_well_formed. Qed.
Print Assumptions C31_well_formed.
Example C31_well_formed_ex :
  parse_netspec (H := debug_env) (lit "10.1.2.3/-0.255.0.255") =
    Ret (ROk (Spec4 (ip4 10 1 2 3) (@new_with_mask (addr V4) ipv4_ops (ip4 10 0 2 0) (ip4 255 0 255 0)))).
Proof. ex. Qed.

(** ** C32: the grammar *)
Theorem C32_accepts : forall (R : Rust) (F : family) (s : str) (a : addr F) (n : net F),
  parse_netspec s = Ret (ROk (spec_of F a n)) <->
  exists A w M mask, s = spec_text A w M /\ addr_shape F A /\ reads F A a /\
    describes F w M mask /\ network_of n a mask.
Proof. exact c32_accepts. Qed.
Print Assumptions C32_accepts.
Example C32_accepts_ex :
  let n := @new_with_mask (addr V6) (addr_ops (H := debug_env) V6) (ip6 0xfe80 0 0 0 0 0 0 1) (ip6 0xffc0 0 0 0 0 0 0 0) in
  spec_text (lit "fe80::1") true (lit "118") = lit "fe80::1/-118" /\
  parse_netspec (H := debug_env) (lit "fe80::1/-118") = Ret (ROk (Spec6 (ip6 0xfe80 0 0 0 0 0 0 1) n)) /\
  parse_netspec (H := debug_env) (lit "fe80::1/-3f:ffff:ffff:ffff:ffff:ffff:ffff:ffff") = Ret (ROk (Spec6 (ip6 0xfe80 0 0 0 0 0 0 1) n)).
Proof. ex. Qed.

Theorem C32_unrecognized : forall (R : Rust) (s t : str),
  parse_netspec s = Ret (RErr (Unrecognized t)) <->
  t = s /\ ~ exists F A w M, s = spec_text A w M /\ addr_shape F A /\ (mask_shape F M \/ decimal M).
Proof. exact c32_unrecognized. Qed.
Print Assumptions C32_unrecognized.
Example C32_unrecognized_ex :
  parse_netspec (H := debug_env) (lit "10.0.0.1") = Ret (RErr (Unrecognized (lit "10.0.0.1"))) /\
  parse_netspec (H := debug_env) (lit "10.0.0.1/ff::") = Ret (RErr (Unrecognized (lit "10.0.0.1/ff::"))) /\
  parse_netspec (H := debug_env) (lit "+10.0.0.1/8") = Ret (RErr (Unrecognized (lit "+10.0.0.1/8"))) /\
  parse_netspec (H := debug_env) (lit "FE80::/10") = Ret (RErr (Unrecognized (lit "FE80::/10"))).
Proof. ex. Qed.

Theorem C32_bad_address : forall (R : Rust) (s : str),
  (exists e, parse_netspec s = Ret (RErr (AddressError e))) <->
  exists F A w M, s = spec_text A w M /\ addr_shape F A /\ (mask_shape F M \/ decimal M) /\
    forall a, ~ reads F A a.
Proof. exact c32_bad_address. Qed.
Print Assumptions C32_bad_address.
Example C32_bad_address_ex :
  parse_netspec (H := debug_env) (lit "10.0.0.256/99") = Ret (RErr (AddressError (ChunkOutOfRange 3 256 0 255))).
Proof. ex. Qed.

Theorem C32_bad_mask : forall (R : Rust) (s : str),
  (exists e, parse_netspec s = Ret (RErr (MaskError e))) <->
  exists F A w M a, s = spec_text A w M /\ addr_shape F A /\ reads F A a /\ mask_shape F M /\
    forall m, ~ reads F M m.
Proof. exact c32_bad_mask. Qed.
Print Assumptions C32_bad_mask.
Example C32_bad_mask_ex :
  parse_netspec (H := debug_env) (lit "1::/1::2::3") = Ret (RErr (MaskError (TooManyShorteningElements 2 1))).
Proof. ex. Qed.

Theorem C32_bad_prefix : forall (R : Rust) (s : str) (x max : N),
  parse_netspec s = Ret (RErr (CidrRange x max)) <->
  exists F A w M a, s = spec_text A w M /\ addr_shape F A /\ reads F A a /\
    numeral 10 M = Some x /\ width F < x < 2 ^ usize_bits /\ max = width F.
Proof. exact c32_bad_prefix. Qed.
Print Assumptions C32_bad_prefix.
Example C32_bad_prefix_ex :
  parse_netspec (H := debug_env) (lit "10.0.0.1/-33") = Ret (RErr (CidrRange 33 32)) /\
  parse_netspec (H := debug_env) (lit "::/129") = Ret (RErr (CidrRange 129 128)).
Proof. ex. Qed.

Theorem C32_huge_prefix : forall (R : Rust) (s : str) (e : int_error),
  parse_netspec s = Ret (RErr (CidrParseError e)) <->
  e = IE_PosOverflow /\
  exists F A w M a x, s = spec_text A w M /\ addr_shape F A /\ reads F A a /\
    numeral 10 M = Some x /\ 2 ^ usize_bits <= x.
Proof. exact c32_huge_prefix. Qed.
Print Assumptions C32_huge_prefix.
Example C32_huge_prefix_ex :
  parse_netspec (H := debug_env) (lit "10.0.0.1/18446744073709551616") = Ret (RErr (CidrParseError IE_PosOverflow)).
Proof. ex. Qed.

(** ** C33: lists of specifications *)
Theorem C33_accepts : forall (R : Rust) (F : family) (ss : list str) (l : list (addr F * net F)),
  parse_same_family_netspecs ss = Ret (ROk (specs_of F l)) <->
  ss <> [] /\ Forall2 (fun s an => parse_netspec s = Ret (ROk (spec_of F (fst an) (snd an)))) ss l.
Proof. exact c33_accepts. Qed.
Print Assumptions C33_accepts.
Example C33_accepts_ex :
  match parse_same_family_netspecs (H := debug_env) [lit "10.0.0.1/8"; lit "10.0.0.2/9"] with
  | Ret (ROk (Specs4 [(a, _); (b, _)])) => a = ip4 10 0 0 1 /\ b = ip4 10 0 0 2
  | _ => False
  end.
Proof. ex. Qed.

Theorem C33_nothing : forall (R : Rust) (ss : list str),
  parse_same_family_netspecs ss = Ret (ROk SpecsNothing) <-> ss = [].
Proof. exact c33_nothing. Qed.
Print Assumptions C33_nothing.
Example C33_nothing_ex :
  parse_same_family_netspecs (H := debug_env) [] = Ret (ROk SpecsNothing) /\
  parse_same_family_netspecs (H := debug_env) [[]] = Ret (RErr (Unrecognized [])).
Proof. ex. Qed.

Theorem C33_first_error : forall (R : Rust) (ss : list str) (e : netspec_error),
  parse_same_family_netspecs ss = Ret (RErr e) <->
  exists F pre s post, ss = pre ++ s :: post /\ parse_netspec s = Ret (RErr e) /\
    Forall (fun t => exists (a : addr F) n, parse_netspec t = Ret (ROk (spec_of F a n))) pre.
Proof. exact c33_first_error. Qed.
Print Assumptions C33_first_error.
Example C33_first_error_ex :
  parse_same_family_netspecs (H := debug_env) [lit "10.0.0.1/8"; lit "x"; lit "::/0"] = Ret (RErr (Unrecognized (lit "x"))).
Proof. ex. Qed.

Theorem C33_mixed : forall (R : Rust) (ss : list str),
  parse_same_family_netspecs ss = Ret (ROk SpecsMixed) <->
  exists F G pre s post, F <> G /\ pre <> [] /\ ss = pre ++ s :: post /\
    (exists (a : addr G) n, parse_netspec s = Ret (ROk (spec_of G a n))) /\
    Forall (fun t => exists (a : addr F) n, parse_netspec t = Ret (ROk (spec_of F a n))) pre.
Proof. exact c33_mixed. Qed.
Print Assumptions C33_mixed.
Example C33_mixed_ex :
  parse_same_family_netspecs (H := debug_env) [lit "10.0.0.1/8"; lit "::/0"; lit "x"] = Ret (ROk SpecsMixed).
Proof. ex. Qed.

Theorem C33_returns : forall (R : Rust) (ss : list str), exists r, parse_same_family_netspecs ss = Ret r.
Proof. exact c33_returns. Qed.
Print Assumptions C33_returns.
Example C33_returns_ex :
  parse_same_family_netspecs (H := narrow_env) [lit "10.0.0.1/99999999999999999999"] <> Panic /\
  parse_same_family_netspecs (H := debug_env) [lit "/"; lit ":::/-:"] = Ret (RErr (Unrecognized (lit "/"))).
Proof. ex. Qed.

(** ** C34: address and subnet arguments *)
Theorem C34_address : forall (F : family) (s : str) (a : addr F),
  parse_addr s = Ret (ROk (parsed_of F a)) <-> s <> [] /\ reads F s a.
Proof. exact c34_address. Qed.
Print Assumptions C34_address.
Example C34_address_ex :
  parse_addr (lit "10.0.0.1") = Ret (ROk (PAddr4 (ip4 10 0 0 1))) /\
  parse_addr (lit "::1") = Ret (ROk (PAddr6 (ip6 0 0 0 0 0 0 0 1))).
Proof. ex. Qed.

Theorem C34_unknown : forall (s : str),
  parse_addr s = Ret (RErr UnknownAddressType) <-> (In "."%char s <-> In ":"%char s).
Proof. exact c34_unknown. Qed.
Print Assumptions C34_unknown.
Example C34_unknown_ex :
  parse_addr (lit "::10.0.0.1") = Ret (RErr UnknownAddressType) /\ parse_addr (lit "10") = Ret (RErr UnknownAddressType).
Proof. ex. Qed.

Theorem C34_returns : forall (R : Rust) (s : str),
  (exists r, parse_addr s = Ret r) /\ (exists r, parse_subnet s = Ret r).
Proof. exact c34_returns. Qed.
Print Assumptions C34_returns.
Example C34_returns_ex :
  parse_addr (lit ":::") <> Panic /\ parse_addr (lit "1.2.3.4.5") <> Panic /\ parse_subnet (H := narrow_env) (lit "99999") <> Panic.
Proof. ex. Qed.

Theorem C34_subnet : forall (R : Rust) (s : str),
  (forall m, parse_subnet s = Ret (ROk (PSMask6 m)) <-> s <> [] /\ reads V6 s m) /\
  (forall m, parse_subnet s = Ret (ROk (PSMask4 m)) <-> reads V4 s m) /\
  (forall p, parse_subnet s = Ret (ROk (PSCidr p)) <-> written 10 s p /\ p < 2 ^ usize_bits).
Proof. exact c34_subnet. Qed.
Print Assumptions C34_subnet.
Example C34_subnet_ex :
  parse_subnet (H := debug_env) (lit "ff::") = Ret (ROk (PSMask6 (ip6 0xff 0 0 0 0 0 0 0))) /\
  parse_subnet (H := debug_env) (lit "255.0.255.0") = Ret (ROk (PSMask4 (ip4 255 0 255 0))) /\
  parse_subnet (H := debug_env) (lit "0999") = Ret (ROk (PSCidr 999)) /\
  parse_subnet (H := debug_env) (lit "4294967296") = Ret (ROk (PSCidr 4294967296)) /\
  parse_subnet (H := narrow_env) (lit "4294967296") = Ret (RErr (CidrParseError IE_PosOverflow)).
Proof. ex. Qed.
