(** * Net: model of /repo/src/net.rs *)
From Verif Require Export RustBase Addr Cidr BitManip.

(** net.rs:8-14 [struct IpNetwork]. usize values are [N]. *)
Record network (A : Type) : Type := Network {
  base_addr : A;
  subnet_mask : A;
  cidr_prefix : option N
}.
Arguments Network {A}.
Arguments base_addr {A}.
Arguments subnet_mask {A}.
Arguments cidr_prefix {A}.

(** [==] on Option<usize>. *)
Definition opt_eqb (a b : option N) : bool :=
  match a, b with
  | Some x, Some y => N.eqb x y
  | None, None => true
  | _, _ => false
  end.

Section Generic.
  Context `{Rust} {A : Type} `{IpAddress A}.

  (** net.rs:9 derived PartialEq: all three fields. *)
  Definition net_eqb (a b : network A) : bool :=
    aeqb (base_addr a) (base_addr b)
    && aeqb (subnet_mask a) (subnet_mask b)
    && opt_eqb (cidr_prefix a) (cidr_prefix b).

  (** net.rs:18-30. *)
  Definition new_with_mask (addr subnet_mask : A) : network A :=
    {| base_addr := band addr subnet_mask;
       subnet_mask := subnet_mask;
       cidr_prefix := prefix_from_subnet_mask_bytes (to_bytes subnet_mask) |}.

  (** net.rs:33-47. *)
  Definition new_with_prefix (addr : A) (cidr_prefix : N) : res (network A) :=
    let mask_bytes := subnet_mask_bytes_from_prefix cidr_prefix (byte_count addr) in
    subnet_mask <- unwrap (from_bytes mask_bytes) ;;
    Ret {| base_addr := band addr subnet_mask;
           subnet_mask := subnet_mask;
           cidr_prefix := Some cidr_prefix |}.

  (** net.rs:51-61. *)
  Definition new_with_mask_strict (addr subnet_mask : A) : option (network A) :=
    let net := new_with_mask addr subnet_mask in
    if aeqb (base_addr net) addr then Some net else None.

  (** net.rs:65-75. *)
  Definition new_with_prefix_strict (addr : A) (cidr_prefix : N) : res (option (network A)) :=
    net <- new_with_prefix addr cidr_prefix ;;
    Ret (if aeqb (base_addr net) addr then Some net else None).

  (** net.rs:88-90. *)
  Definition cisco_wildcard (n : network A) : A := bitwise_negate (subnet_mask n).

  (** net.rs:94-103: one doubling per set bit of the wildcard. BigUint is N. *)
  Definition address_count (n : network A) : N :=
    fold_left
      (fun ret b => N.iter (popcount b) (fun ret => ret * 2) ret)
      (to_bytes (cisco_wildcard n)) 1.

  (** net.rs:107-110. BigInt is Z. *)
  Definition host_count (n : network A) : Z := (Z.of_N (address_count n) - 2)%Z.

  (** net.rs:115-118, 135-138, 160-163, 187-190. *)
  Definition host_bits_available (n : network A) : N :=
    sum_N (map popcount (to_bytes (cisco_wildcard n))).

  (** net.rs:114-130. *)
  Definition first_host_addr (n : network A) : res (option A) :=
    if host_bits_available n <? 2 then Ret None
    else
      unraveled_base <- unravel_address (base_addr n) (subnet_mask n) ;;
      o <- add_offset unraveled_base 1 ;;
      match o with
      | None => Ret None
      | Some unraveled_first_host =>
          w <- weave_address unraveled_first_host (subnet_mask n) ;; Ret (Some w)
      end.

  (** net.rs:145-153, 171-179, 191-199: the unravelled broadcast address. *)
  Definition unraveled_broadcast (n : network A) : res (option A) :=
    unraveled_base <- unravel_address (base_addr n) (subnet_mask n) ;;
    p <- usize_sub (N.of_nat (List.length (to_bytes (base_addr n)) * 8)) (host_bits_available n) ;;
    hca <- unwrap (from_bytes (subnet_mask_bytes_from_prefix p (byte_count (base_addr n)))) ;;
    Ret (add_addr unraveled_base (bitwise_negate hca)).

  (** net.rs:134-155. *)
  Definition broadcast_addr (n : network A) : res (option A) :=
    if host_bits_available n <? 1 then Ret None
    else
      o <- unraveled_broadcast n ;;
      match o with
      | None => Ret None
      | Some unraveled_broadcast =>
          w <- weave_address unraveled_broadcast (subnet_mask n) ;; Ret (Some w)
      end.

  (** net.rs:159-182. *)
  Definition last_host_addr (n : network A) : res (option A) :=
    if host_bits_available n <? 2 then Ret None
    else
      o <- unraveled_broadcast n ;;
      match o with
      | None => Ret None
      | Some unraveled_broadcast =>
          o <- subtract_offset unraveled_broadcast 1 ;;
          match o with
          | None => Ret None
          | Some unraveled_last_host =>
              w <- weave_address unraveled_last_host (subnet_mask n) ;; Ret (Some w)
          end
      end.

  (** net.rs:186-202. *)
  Definition next_subnet_base_addr (n : network A) : res (option A) :=
    o <- unraveled_broadcast n ;;
    match o with
    | None => Ret None
    | Some unraveled_broadcast =>
        o <- add_offset unraveled_broadcast 1 ;;
        match o with
        | None => Ret None
        | Some unraveled_next_base =>
            w <- weave_address unraveled_next_base (subnet_mask n) ;; Ret (Some w)
        end
    end.

  (** net.rs:206-208. *)
  Definition last_addr_of_subnet (n : network A) : res A :=
    o <- broadcast_addr n ;;
    Ret (match o with Some a => a | None => base_addr n end).

  (** net.rs:211-213. *)
  Definition contains (n : network A) (addr : A) : bool :=
    aeqb (band addr (subnet_mask n)) (base_addr n).

  (** net.rs:217-225. *)
  Definition is_superset_of (n other : network A) : bool :=
    aeqb (band (base_addr other) (subnet_mask n)) (base_addr n)
    && aeqb (band (subnet_mask other) (subnet_mask n)) (subnet_mask n).

  (** net.rs:229-231. *)
  Definition is_subset_of (n other : network A) : bool := is_superset_of other n.

  (** net.rs:235-243. *)
  Definition intersects (n other : network A) : res bool :=
    let self_first := base_addr n in
    self_last <- last_addr_of_subnet n ;;
    let other_first := base_addr other in
    other_last <- last_addr_of_subnet other ;;
    Ret (aleb self_first other_last && aleb other_first self_last).

  (** net.rs:245-253. *)
  Definition net_display (n : network A) : str :=
    match cidr_prefix n with
    | Some prefix => display (base_addr n) ++ lit "/" ++ fmt_dec prefix
    | None => display (base_addr n) ++ lit "/" ++ display (subnet_mask n)
    end.
End Generic.
