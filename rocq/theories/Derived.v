(** * Derived: the comparisons derived for the program's data types.

    [#[derive(PartialOrd, Ord)]] compares fields in the order of their declaration, and
    variants of an enum in that order before their fields; [None] is below [Some], a
    slice below its extensions. The program's own code does not use these comparisons
    but for addresses (Addr.v); they are part of the crate's types. *)
From Verif Require Export RustBase Addr Net Parse.

(** Ordering::then. *)
Definition and_then (c d : comparison) : comparison := match c with Eq => d | _ => c end.

(** Option<usize>. *)
Definition opt_cmp (a b : option N) : comparison :=
  match a, b with
  | None, None => Eq
  | None, Some _ => Lt
  | Some _, None => Gt
  | Some x, Some y => N.compare x y
  end.

(** Vec<T>. *)
Fixpoint list_cmp {T : Type} (cmp : T -> T -> comparison) (l l' : list T) : comparison :=
  match l, l' with
  | [], [] => Eq
  | [], _ :: _ => Lt
  | _ :: _, [] => Gt
  | x :: r, y :: r' => and_then (cmp x y) (list_cmp cmp r r')
  end.

(** (T, T'). *)
Definition pair_cmp {T T' : Type} (cmp : T -> T -> comparison) (cmp' : T' -> T' -> comparison) (a b : T * T') : comparison :=
  and_then (cmp (fst a) (fst b)) (cmp' (snd a) (snd b)).

(** net.rs:9-14 [IpNetwork]. *)
Definition net_cmp {A : Type} `{IpAddress A} (a b : network A) : comparison :=
  and_then (acmp (base_addr a) (base_addr b))
    (and_then (acmp (subnet_mask a) (subnet_mask b)) (opt_cmp (cidr_prefix a) (cidr_prefix b))).

Section Enums.
  Context `{Rust}.

  (** mod.rs:36-40 [ParsedIpAddress]. *)
  Definition parsed_cmp (a b : parsed_addr) : comparison :=
    match a, b with
    | PAddr4 x, PAddr4 y => acmp x y
    | PAddr4 _, PAddr6 _ => Lt
    | PAddr6 _, PAddr4 _ => Gt
    | PAddr6 x, PAddr6 y => acmp x y
    end.

  (** mod.rs:52-56 [NetworkSpec]. *)
  Definition spec_cmp (a b : network_spec) : comparison :=
    match a, b with
    | Spec4 x n, Spec4 y m => and_then (acmp x y) (net_cmp n m)
    | Spec4 _ _, Spec6 _ _ => Lt
    | Spec6 _ _, Spec4 _ _ => Gt
    | Spec6 x n, Spec6 y m => and_then (acmp x y) (net_cmp n m)
    end.

  (** mod.rs:59-65 [NetworkSpecs]. *)
  Definition specs_index (a : network_specs) : N :=
    match a with SpecsNothing => 0 | SpecsMixed => 1 | Specs4 _ => 2 | Specs6 _ => 3 end.
  Definition specs_cmp (a b : network_specs) : comparison :=
    match a, b with
    | Specs4 l, Specs4 l' => list_cmp (pair_cmp acmp net_cmp) l l'
    | Specs6 l, Specs6 l' => list_cmp (pair_cmp acmp net_cmp) l l'
    | _, _ => N.compare (specs_index a) (specs_index b)
    end.

  (** mod.rs:69-74 [ParsedSubnet]. *)
  Definition subnet_index (a : parsed_subnet) : N :=
    match a with PSCidr _ => 0 | PSMask4 _ => 1 | PSMask6 _ => 2 end.
  Definition subnet_cmp (a b : parsed_subnet) : comparison :=
    match a, b with
    | PSCidr p, PSCidr q => N.compare p q
    | PSMask4 m, PSMask4 m' => acmp m m'
    | PSMask6 m, PSMask6 m' => acmp m m'
    | _, _ => N.compare (subnet_index a) (subnet_index b)
    end.
End Enums.

(** addr.rs:50 and 195, derived [Default]; addr.rs:55 [IPV4_ZERO] and 201 [IPV6_ZERO]. *)
Definition ipv4_default : ipv4 := Ipv4 0.
Definition ipv6_default : ipv6 := Ipv6 0 0.
Definition IPV4_ZERO : ipv4 := Ipv4 0.
Definition IPV6_ZERO : ipv6 := Ipv6 0 0.
