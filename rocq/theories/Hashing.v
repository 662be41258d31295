(** * Hashing: what the derived [Hash] implementations feed to a hasher.

    [#[derive(Hash)]] hashes the number of the variant (an isize) and then the fields in
    the order of their declaration; [Option] does the same, a vector hashes its length and
    then its elements, a tuple its components. Hashers themselves are std's or the
    caller's: only the sequence of calls of [Hasher::write_*] is modelled. *)
From Verif Require Export RustBase Addr Net Parse Console.

Inductive hash_write :=
| WriteU32 (n : N)
| WriteU64 (n : N)
| WriteUsize (n : N)
| WriteIsize (n : N).

(** Option<usize>, Vec<T>, (T, T'). *)
Definition hash_opt (o : option N) : list hash_write :=
  match o with None => [WriteIsize 0] | Some p => [WriteIsize 1; WriteUsize p] end.
Definition hash_vec {T : Type} (hash : T -> list hash_write) (l : list T) : list hash_write :=
  WriteUsize (N.of_nat (List.length l)) :: flat_map hash l.
Definition hash_pair {T T' : Type} (hash : T -> list hash_write) (hash' : T' -> list hash_write) (p : T * T') : list hash_write :=
  hash (fst p) ++ hash' (snd p).

(** addr.rs:50 and 195. *)
Definition hash_v4 (a : ipv4) : list hash_write := [WriteU32 (addr_value a)].
Definition hash_v6 (a : ipv6) : list hash_write := [WriteU64 (top_half a); WriteU64 (bottom_half a)].

(** net.rs:9-14 [IpNetwork]. *)
Definition hash_net {A : Type} (hash : A -> list hash_write) (n : network A) : list hash_write :=
  hash (base_addr n) ++ hash (subnet_mask n) ++ hash_opt (cidr_prefix n).

(** mod.rs:36-40 [ParsedIpAddress]. *)
Definition hash_parsed (a : parsed_addr) : list hash_write :=
  match a with
  | PAddr4 a => WriteIsize 0 :: hash_v4 a
  | PAddr6 a => WriteIsize 1 :: hash_v6 a
  end.

(** mod.rs:52-56 [NetworkSpec]. *)
Definition hash_spec (s : network_spec) : list hash_write :=
  match s with
  | Spec4 a n => WriteIsize 0 :: hash_v4 a ++ hash_net hash_v4 n
  | Spec6 a n => WriteIsize 1 :: hash_v6 a ++ hash_net hash_v6 n
  end.

(** mod.rs:59-65 [NetworkSpecs]. *)
Definition hash_specs (s : network_specs) : list hash_write :=
  match s with
  | SpecsNothing => [WriteIsize 0]
  | SpecsMixed => [WriteIsize 1]
  | Specs4 l => WriteIsize 2 :: hash_vec (hash_pair hash_v4 (hash_net hash_v4)) l
  | Specs6 l => WriteIsize 3 :: hash_vec (hash_pair hash_v6 (hash_net hash_v6)) l
  end.

(** mod.rs:69-74 [ParsedSubnet]. *)
Definition hash_subnet (s : parsed_subnet) : list hash_write :=
  match s with
  | PSCidr p => [WriteIsize 0; WriteUsize p]
  | PSMask4 m => WriteIsize 1 :: hash_v4 m
  | PSMask6 m => WriteIsize 2 :: hash_v6 m
  end.

(** console.rs:7-25 [Color]. *)
Definition color_index (c : color) : N :=
  match c with
  | Black => 0 | DarkBlue => 1 | DarkGreen => 2 | DarkCyan => 3 | DarkRed => 4 | DarkMagenta => 5 | DarkYellow => 6 | Gray => 7
  | DarkGray => 8 | Blue => 9 | Green => 10 | Cyan => 11 | Red => 12 | Magenta => 13 | Yellow => 14 | White => 15
  end.
Definition hash_color (c : color) : list hash_write := [WriteIsize (color_index c)].

(** The hash of a value under a hasher that ends with [finish]. *)
Definition hash_of {T : Type} (hash : T -> list hash_write) (finish : list hash_write -> N) (x : T) : N := finish (hash x).
