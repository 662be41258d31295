(** * Parse: model of /repo/src/cmds/mod.rs *)
From Verif Require Export RustBase Addr Cidr BitManip Net Regex.

(** mod.rs:22, 25: the sub-pattern [[0-9]+(?:[.][0-9]+){3}]. *)
Definition R_IPV4 : regex :=
  RSeq (RPlus cls_digit) (RRep 3 (RSeq (RChar (cls_one ".")) (RPlus cls_digit))).
(** [/(?P<wildcard>-)?] *)
Definition R_SLASH_WILDCARD : regex :=
  RSeq (RChar (cls_one "/")) (ROpt (RCap "wildcard" (RChar (cls_one "-")))).

(** mod.rs:21-23. *)
Definition IPV4_WITH_SUBNET_REGEX : regex :=
  RSeq (RCap "addr" R_IPV4) (RSeq R_SLASH_WILDCARD (RCap "mask" R_IPV4)).
(** mod.rs:24-26. *)
Definition IPV4_WITH_CIDR_REGEX : regex :=
  RSeq (RCap "addr" R_IPV4) (RSeq R_SLASH_WILDCARD (RCap "cidr" (RPlus cls_digit))).
(** mod.rs:27-29. *)
Definition IPV6_WITH_SUBNET_REGEX : regex :=
  RSeq (RCap "addr" (RPlus cls_v6))
    (RSeq R_SLASH_WILDCARD
       (RCap "mask" (RSeq (RStar cls_v6) (RSeq (RChar (cls_one ":")) (RStar cls_v6))))).
(** mod.rs:30-32. *)
Definition IPV6_WITH_CIDR_REGEX : regex :=
  RSeq (RCap "addr" (RPlus cls_v6)) (RSeq R_SLASH_WILDCARD (RCap "cidr" (RPlus cls_digit))).

(** mod.rs:37-40. *)
Inductive parsed_addr := PAddr4 (a : ipv4) | PAddr6 (a : ipv6).
(** mod.rs:42-47. *)
Definition version (p : parsed_addr) : N :=
  match p with PAddr4 _ => 4 | PAddr6 _ => 6 end.

(** mod.rs:53-56. *)
Inductive network_spec :=
| Spec4 (a : ipv4) (n : network ipv4)
| Spec6 (a : ipv6) (n : network ipv6).

(** mod.rs:60-65. *)
Inductive network_specs :=
| SpecsNothing
| SpecsMixed
| Specs4 (l : list (ipv4 * network ipv4))
| Specs6 (l : list (ipv6 * network ipv6)).

(** mod.rs:70-74. *)
Inductive parsed_subnet :=
| PSCidr (p : N)
| PSMask4 (m : ipv4)
| PSMask6 (m : ipv6).

(** mod.rs:76-98 (Display, 99-115: see Messages.v). *)
Inductive netspec_error :=
| Unrecognized (s : str)
| AddressError (e : addr_error)
| MaskError (e : addr_error)
| CidrParseError (e : int_error)
| CidrRange (got max : N).

(** mod.rs:120-135. *)
Definition parse_addr (spec : str) : res (result parsed_addr addr_error) :=
  if contains_char "." spec then
    if contains_char ":" spec then Ret (RErr UnknownAddressType)
    else Ret (rbind (v4_from_str spec) (fun a => ROk (PAddr4 a)))
  else if contains_char ":" spec then
    r <- v6_from_str spec ;; Ret (rbind r (fun a => ROk (PAddr6 a)))
  else Ret (RErr UnknownAddressType).

Definition is_some {T : Type} (o : option T) : bool :=
  match o with Some _ => true | None => false end.

Section WithRust.
  Context `{Rust}.

  (** mod.rs:138-208. *)
  Definition parse_netspec (spec : str) : res (result network_spec netspec_error) :=
    match captures IPV4_WITH_SUBNET_REGEX spec with
    | Some caps =>
        addr_str <- unwrap (cap_name "addr" caps) ;;
        let is_wildcard := is_some (cap_name "wildcard" caps) in
        mask_str <- unwrap (cap_name "mask" caps) ;;
        match v4_from_str addr_str with
        | RErr e => Ret (RErr (AddressError e))
        | ROk addr =>
            match v4_from_str mask_str with
            | RErr e => Ret (RErr (MaskError e))
            | ROk mask =>
                let mask := if is_wildcard then bitwise_negate mask else mask in
                Ret (ROk (Spec4 addr (new_with_mask addr mask)))
            end
        end
    | None =>
    match captures IPV4_WITH_CIDR_REGEX spec with
    | Some caps =>
        addr_str <- unwrap (cap_name "addr" caps) ;;
        let is_wildcard := is_some (cap_name "wildcard" caps) in
        mask_str <- unwrap (cap_name "cidr" caps) ;;
        match v4_from_str addr_str with
        | RErr e => Ret (RErr (AddressError e))
        | ROk addr =>
            match parse_uint 10 usize_max mask_str with
            | RErr e => Ret (RErr (CidrParseError e))
            | ROk cidr =>
                if 32 <? cidr then Ret (RErr (CidrRange cidr 32))
                else
                  cidr <- (if is_wildcard then usize_sub 32 cidr else Ret cidr) ;;
                  net <- new_with_prefix addr cidr ;;
                  Ret (ROk (Spec4 addr net))
            end
        end
    | None =>
    match captures IPV6_WITH_SUBNET_REGEX spec with
    | Some caps =>
        addr_str <- unwrap (cap_name "addr" caps) ;;
        let is_wildcard := is_some (cap_name "wildcard" caps) in
        mask_str <- unwrap (cap_name "mask" caps) ;;
        r <- v6_from_str addr_str ;;
        match r with
        | RErr e => Ret (RErr (AddressError e))
        | ROk addr =>
            r <- v6_from_str mask_str ;;
            match r with
            | RErr e => Ret (RErr (MaskError e))
            | ROk mask =>
                let mask := if is_wildcard then bitwise_negate mask else mask in
                Ret (ROk (Spec6 addr (new_with_mask addr mask)))
            end
        end
    | None =>
    match captures IPV6_WITH_CIDR_REGEX spec with
    | Some caps =>
        addr_str <- unwrap (cap_name "addr" caps) ;;
        let is_wildcard := is_some (cap_name "wildcard" caps) in
        mask_str <- unwrap (cap_name "cidr" caps) ;;
        r <- v6_from_str addr_str ;;
        match r with
        | RErr e => Ret (RErr (AddressError e))
        | ROk addr =>
            match parse_uint 10 usize_max mask_str with
            | RErr e => Ret (RErr (CidrParseError e))
            | ROk cidr =>
                if 128 <? cidr then Ret (RErr (CidrRange cidr 128))
                else
                  cidr <- (if is_wildcard then usize_sub 128 cidr else Ret cidr) ;;
                  net <- new_with_prefix addr cidr ;;
                  Ret (ROk (Spec6 addr net))
            end
        end
    | None => Ret (RErr (Unrecognized spec))
    end end end end.

  (** mod.rs:222-233: the loop over the remaining arguments (IPv4). *)
  Fixpoint specs4_loop (spec_strs : list str) (specs : list (ipv4 * network ipv4))
    : res (result network_specs netspec_error) :=
    match spec_strs with
    | [] => Ret (ROk (Specs4 specs))
    | s :: rest =>
        r <- parse_netspec s ;;
        match r with
        | RErr e => Ret (RErr e)
        | ROk (Spec4 addr net) => specs4_loop rest (specs ++ [(addr, net)])
        | ROk (Spec6 _ _) => Ret (ROk SpecsMixed)
        end
    end.

  (** mod.rs:239-250: the loop over the remaining arguments (IPv6). *)
  Fixpoint specs6_loop (spec_strs : list str) (specs : list (ipv6 * network ipv6))
    : res (result network_specs netspec_error) :=
    match spec_strs with
    | [] => Ret (ROk (Specs6 specs))
    | s :: rest =>
        r <- parse_netspec s ;;
        match r with
        | RErr e => Ret (RErr e)
        | ROk (Spec6 addr net) => specs6_loop rest (specs ++ [(addr, net)])
        | ROk (Spec4 _ _) => Ret (ROk SpecsMixed)
        end
    end.

  (** mod.rs:212-253. *)
  Definition parse_same_family_netspecs (spec_strs : list str)
    : res (result network_specs netspec_error) :=
    match spec_strs with
    | [] => Ret (ROk SpecsNothing)
    | s :: rest =>
        r <- parse_netspec s ;;
        match r with
        | RErr e => Ret (RErr e)
        | ROk (Spec4 addr net) => specs4_loop rest [(addr, net)]
        | ROk (Spec6 addr net) => specs6_loop rest [(addr, net)]
        end
    end.
End WithRust.

(** mod.rs:256-282. *)
Definition parse_subnet `{Rust} (spec : str) : res (result parsed_subnet netspec_error) :=
  if contains_char ":" spec then
    r <- v6_from_str spec ;;
    Ret (match r with ROk ia => ROk (PSMask6 ia) | RErr e => RErr (MaskError e) end)
  else if contains_char "." spec then
    Ret (match v4_from_str spec with ROk ia => ROk (PSMask4 ia) | RErr e => RErr (MaskError e) end)
  else
    Ret (match parse_uint 10 usize_max spec with
         | ROk cp => ROk (PSCidr cp)
         | RErr e => RErr (CidrParseError e)
         end).
