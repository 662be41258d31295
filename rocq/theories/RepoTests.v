(** * RepoTests: the unit tests of /repo/src, transcribed and run on the model.

    Each example is one [#[test]] function; the line numbers say which. They
    are run in the debug environment, as cargo test does. *)
From Verif Require Import RustBase Addr Cidr BitManip Net Regex Parse Derange Minimize Split Resize Enumerate Env.
#[local] Existing Instance debug_env.

(** net.rs:264-290: the helpers of the tests. A text that does not parse, or an
    address with host bits set, gives a value that no expected result equals. *)
Definition p4 (s : string) : ipv4 :=
  match v4_from_str (lit s) with ROk a => a | RErr _ => Ipv4 (2 ^ 40) end.
Definition p6 (s : string) : ipv6 :=
  match v6_from_str (lit s) with Ret (ROk a) => a | _ => Ipv6 (2 ^ 70) 0 end.
Definition got4 (r : res (network ipv4)) : network ipv4 :=
  match r with Ret n => n | _ => Network (Ipv4 (2 ^ 40)) (Ipv4 0) None end.
Definition got6 (r : res (network ipv6)) : network ipv6 :=
  match r with Ret n => n | _ => Network (Ipv6 (2 ^ 70) 0) (Ipv6 0 0) None end.
Definition net4 (s : string) (p : N) : network ipv4 :=
  got4 (o <- new_with_prefix_strict (p4 s) p ;; unwrap o).
Definition net6 (s : string) (p : N) : network ipv6 :=
  got6 (o <- new_with_prefix_strict (p6 s) p ;; unwrap o).
Definition netm4 (s m : string) : network ipv4 :=
  got4 (unwrap (new_with_mask_strict (p4 s) (p4 m))).
Definition netm6 (s m : string) : network ipv6 :=
  got6 (unwrap (new_with_mask_strict (p6 s) (p6 m))).

(** The results of calling next() [k] times. *)
Fixpoint nexts {A : Type} `{IpAddress A} (k : nat) (it : network_iter A) : res (list (option A)) :=
  match k with
  | O => Ret []
  | S k' => ' (o, it') <- iter_next it ;; l <- nexts k' it' ;; Ret (o :: l)
  end.

Ltac tested := vm_compute; repeat split.

(** addr.rs:614-619 *)
Example test_addr_ipv4_format :
  v4_display (Ipv4 0x00000000) = lit "0.0.0.0" /\
  v4_display (Ipv4 0xFFFFFFFF) = lit "255.255.255.255" /\
  v4_display (Ipv4 0x12345678) = lit "18.52.86.120" /\
  v4_display (Ipv4 0x7F000001) = lit "127.0.0.1".
Proof. tested. Qed.

(** addr.rs:626-649 *)
Example test_addr_ipv4_parse :
  v4_from_str (lit "0.0.0.0") = (ROk (Ipv4 0x00000000)) /\
  v4_from_str (lit "00.000.00000.0") = (ROk (Ipv4 0x00000000)) /\
  v4_from_str (lit "1.2.3.4") = (ROk (Ipv4 0x01020304)) /\
  v4_from_str (lit "01.002.00003.4") = (ROk (Ipv4 0x01020304)) /\
  v4_from_str (lit "255.255.255.255") = (ROk (Ipv4 0xFFFFFFFF)) /\
  v4_from_str (lit "18.52.86.120") = (ROk (Ipv4 0x12345678)) /\
  v4_from_str (lit "127.0.0.1") = (ROk (Ipv4 0x7F000001)) /\
  v4_from_str (lit ".") = (RErr (IncorrectChunkCount 2 4)) /\
  v4_from_str (lit "1.2.3") = (RErr (IncorrectChunkCount 3 4)) /\
  v4_from_str (lit "1.2.3.4.5") = (RErr (IncorrectChunkCount 5 4)) /\
  v4_from_str (lit "255.256.255.255") = (RErr (ChunkOutOfRange 1 256 0 255)) /\
  match Ret (v4_from_str (lit "1.2.-3.4")) with Ret (RErr (ChunkParseError idx s _)) => (idx, s) = (2%nat, lit "-3") | _ => False end /\
  match Ret (v4_from_str (lit "0xFF.256.255.255")) with Ret (RErr (ChunkParseError idx s _)) => (idx, s) = (0%nat, lit "0xFF") | _ => False end.
Proof. tested. Qed.

(** addr.rs:652-658 *)
Example test_addr_ipv4_bytes :
  v4_to_bytes (Ipv4 0x00000000) = [0; 0; 0; 0] /\
  v4_to_bytes (Ipv4 0x01020304) = [1; 2; 3; 4] /\
  v4_to_bytes (Ipv4 0xFFFFFFFF) = [255; 255; 255; 255] /\
  v4_to_bytes (Ipv4 0x12345678) = [18; 52; 86; 120] /\
  v4_to_bytes (Ipv4 0x7F000001) = [127; 0; 0; 1].
Proof. tested. Qed.

(** addr.rs:661-670 *)
Example test_addr_from_ipv4_bytes :
  v4_from_bytes [0; 0; 0; 0] = (Some (Ipv4 0x00000000)) /\
  v4_from_bytes [1; 2; 3; 4] = (Some (Ipv4 0x01020304)) /\
  v4_from_bytes [255; 255; 255; 255] = (Some (Ipv4 0xFFFFFFFF)) /\
  v4_from_bytes [18; 52; 86; 120] = (Some (Ipv4 0x12345678)) /\
  v4_from_bytes [127; 0; 0; 1] = (Some (Ipv4 0x7F000001)) /\
  v4_from_bytes [1; 2; 3] = None /\
  v4_from_bytes [1; 2; 3; 4; 5] = None.
Proof. tested. Qed.

(** addr.rs:673-685 *)
Example test_addr_ipv4_eq :
  v4_eqb (Ipv4 0x00000000) (Ipv4 0x00000000) = true /\
  v4_eqb (Ipv4 0xFFFFFFFF) (Ipv4 0xFFFFFFFF) = true /\
  v4_eqb (Ipv4 0x7F000001) (Ipv4 0x7F000001) = true /\
  v4_eqb (Ipv4 0x7F1234AB) (Ipv4 0x7F1234AB) = true.
Proof. tested. Qed.

(** addr.rs:688-699 *)
Example test_addr_ipv4_and :
  v4_and (Ipv4 0x7F000001) (Ipv4 0xFF000000) = Ipv4 0x7F000000 /\
  v4_and (Ipv4 0xC0A8A917) (Ipv4 0xFFFFFF00) = Ipv4 0xC0A8A900.
Proof. tested. Qed.

(** addr.rs:702-711 *)
Example test_addr_ipv6_format :
  v6_display (Ipv6 0x0 0x0) = lit "::" /\
  v6_display (Ipv6 0x0 0x1) = lit "::1" /\
  v6_display (Ipv6 0x0000000000000000 0x0000000001234567) = lit "::123:4567" /\
  v6_display (Ipv6 0x0012003400000000 0x0000000000000000) = lit "12:34::" /\
  v6_display (Ipv6 0xABCD012300000000 0x0000000000000256) = lit "abcd:123::256" /\
  v6_display (Ipv6 0xABCD000000000000 0x0000000001230256) = lit "abcd::123:256" /\
  v6_display (Ipv6 0xFFFFFFFFFFFFFFFF 0xFFFFFFFFFFFFFFFF) = lit "ffff:ffff:ffff:ffff:ffff:ffff:ffff:ffff" /\
  v6_display (Ipv6 0xFEC0ABCD1234DEFA 0x1337800812242323) = lit "fec0:abcd:1234:defa:1337:8008:1224:2323".
Proof. tested. Qed.

(** addr.rs:714-752 *)
Example test_addr_ipv6_parse :
  v6_from_str (lit ":") = Ret (RErr (IncorrectChunkCount 2 8)) /\
  v6_from_str (lit "a:") = Ret (RErr (IncorrectChunkCount 2 8)) /\
  v6_from_str (lit ":a") = Ret (RErr (IncorrectChunkCount 2 8)) /\
  v6_from_str (lit ":::") = Ret (RErr (TooManyShorteningElements 2 1)) /\
  v6_from_str (lit "fe80::a55e:55ed::0b50:1e7e") = Ret (RErr (TooManyShorteningElements 2 1)) /\
  match v6_from_str (lit "fe80::a55e:55ed:0b50:1ete") with Ret (RErr (ChunkParseError idx s _)) => (idx, s) = (7%nat, lit "1ete") | _ => False end /\
  v6_from_str (lit "0000:0000:0000:0000:0000:0000:0000:0000") = Ret (ROk (Ipv6 0x0000000000000000 0x0000000000000000)) /\
  v6_from_str (lit "0:0:0:0:0:0:0:0") = Ret (ROk (Ipv6 0x0000000000000000 0x0000000000000000)) /\
  v6_from_str (lit "::") = Ret (ROk (Ipv6 0x0000000000000000 0x0000000000000000)) /\
  v6_from_str (lit "0:00:000:0000:000:0:0000:00") = Ret (ROk (Ipv6 0x0000000000000000 0x0000000000000000)) /\
  v6_from_str (lit "0:00:000::0:0000:00") = Ret (ROk (Ipv6 0x0000000000000000 0x0000000000000000)) /\
  v6_from_str (lit "0000:0000:0000:0000:0000:0000:0000:0001") = Ret (ROk (Ipv6 0x0000000000000000 0x0000000000000001)) /\
  v6_from_str (lit "0:0:0:0:0:0:0:1") = Ret (ROk (Ipv6 0x0000000000000000 0x0000000000000001)) /\
  v6_from_str (lit "::1") = Ret (ROk (Ipv6 0x0000000000000000 0x0000000000000001)) /\
  v6_from_str (lit "0:00:000:0000:000:0:0000:01") = Ret (ROk (Ipv6 0x0000000000000000 0x0000000000000001)) /\
  v6_from_str (lit "0:00:000::0:0000:01") = Ret (ROk (Ipv6 0x0000000000000000 0x0000000000000001)) /\
  v6_from_str (lit "fe80:0000:0000:0000:a55e:55ed:0b50:1e7e") = Ret (ROk (Ipv6 0xFE80000000000000 0xA55E55ED0B501E7E)) /\
  v6_from_str (lit "fe80:0:0:0:a55e:55ed:b50:1e7e") = Ret (ROk (Ipv6 0xFE80000000000000 0xA55E55ED0B501E7E)) /\
  v6_from_str (lit "fe80::a55e:55ed:0b50:1e7e") = Ret (ROk (Ipv6 0xFE80000000000000 0xA55E55ED0B501E7E)) /\
  v6_from_str (lit "fe80::a55e:55ed:b50:1e7e") = Ret (ROk (Ipv6 0xFE80000000000000 0xA55E55ED0B501E7E)).
Proof. tested. Qed.

(** addr.rs:755-764 *)
Example test_addr_ipv6_bytes :
  v6_to_bytes (Ipv6 0x0000000000000000 0x0000000000000000) = [0x00; 0x00; 0x00; 0x00; 0x00; 0x00; 0x00; 0x00; 0x00; 0x00; 0x00; 0x00; 0x00; 0x00; 0x00; 0x00] /\
  v6_to_bytes (Ipv6 0x0000000000000000 0x0000000000000001) = [0x00; 0x00; 0x00; 0x00; 0x00; 0x00; 0x00; 0x00; 0x00; 0x00; 0x00; 0x00; 0x00; 0x00; 0x00; 0x01] /\
  v6_to_bytes (Ipv6 0xFE80000000000000 0xA55E55ED0B501E7E) = [0xFE; 0x80; 0x00; 0x00; 0x00; 0x00; 0x00; 0x00; 0xA5; 0x5E; 0x55; 0xED; 0x0B; 0x50; 0x1E; 0x7E] /\
  v6_to_bytes (Ipv6 0x123456789ABCDEF0 0xFEDCBA9876543210) = [0x12; 0x34; 0x56; 0x78; 0x9A; 0xBC; 0xDE; 0xF0; 0xFE; 0xDC; 0xBA; 0x98; 0x76; 0x54; 0x32; 0x10].
Proof. tested. Qed.

(** addr.rs:767-780 *)
Example test_addr_from_ipv6_bytes :
  v6_from_bytes [0xFE; 0x80; 0x00; 0x00; 0x00; 0x00; 0x00; 0x00; 0xA5; 0x5E; 0x55; 0xED; 0x0B; 0x50; 0x1E] = None /\
  v6_from_bytes [0xFE; 0x80; 0x00; 0x00; 0x00; 0x00; 0x00; 0x00; 0xA5; 0x5E; 0x55; 0xED; 0x0B; 0x50; 0x1E; 0x7E; 0x99] = None /\
  v6_from_bytes [0x00; 0x00; 0x00; 0x00; 0x00; 0x00; 0x00; 0x00; 0x00; 0x00; 0x00; 0x00; 0x00; 0x00; 0x00; 0x00] = Some (Ipv6 0x0000000000000000 0x0000000000000000) /\
  v6_from_bytes [0x00; 0x00; 0x00; 0x00; 0x00; 0x00; 0x00; 0x00; 0x00; 0x00; 0x00; 0x00; 0x00; 0x00; 0x00; 0x01] = Some (Ipv6 0x0000000000000000 0x0000000000000001) /\
  v6_from_bytes [0xFE; 0x80; 0x00; 0x00; 0x00; 0x00; 0x00; 0x00; 0xA5; 0x5E; 0x55; 0xED; 0x0B; 0x50; 0x1E; 0x7E] = Some (Ipv6 0xFE80000000000000 0xA55E55ED0B501E7E) /\
  v6_from_bytes [0x12; 0x34; 0x56; 0x78; 0x9A; 0xBC; 0xDE; 0xF0; 0xFE; 0xDC; 0xBA; 0x98; 0x76; 0x54; 0x32; 0x10] = Some (Ipv6 0x123456789ABCDEF0 0xFEDCBA9876543210).
Proof. tested. Qed.

(** addr.rs:783-795 *)
Example test_addr_ipv6_eq :
  v6_eqb (Ipv6 0x0000000000000000 0x0000000000000000) (Ipv6 0x0000000000000000 0x0000000000000000) = true /\
  v6_eqb (Ipv6 0x0000000000000000 0x0000000000000001) (Ipv6 0x0000000000000000 0x0000000000000001) = true /\
  v6_eqb (Ipv6 0xFE80000000000000 0xA55E55ED0B501E7E) (Ipv6 0xFE80000000000000 0xA55E55ED0B501E7E) = true /\
  v6_eqb (Ipv6 0x123456789ABCDEF0 0xFEDCBA9876543210) (Ipv6 0x123456789ABCDEF0 0xFEDCBA9876543210) = true.
Proof. tested. Qed.

(** addr.rs:798-808 *)
Example test_addr_ipv6_and :
  v6_and (Ipv6 0x123456789ABCDEF0 0xFEDCBA9876543210) (Ipv6 0xFEDCBA9876543210 0x123456789ABCDEF0) = Ipv6 0x1214121812141210 0x1214121812141210.
Proof. tested. Qed.

(** cidr.rs:86-124 *)
Example test_cidr_mask_bytes_from_prefix :
  subnet_mask_bytes_from_prefix 0 4 = [0; 0; 0; 0] /\
  subnet_mask_bytes_from_prefix 1 4 = [128; 0; 0; 0] /\
  subnet_mask_bytes_from_prefix 2 4 = [192; 0; 0; 0] /\
  subnet_mask_bytes_from_prefix 3 4 = [224; 0; 0; 0] /\
  subnet_mask_bytes_from_prefix 4 4 = [240; 0; 0; 0] /\
  subnet_mask_bytes_from_prefix 5 4 = [248; 0; 0; 0] /\
  subnet_mask_bytes_from_prefix 6 4 = [252; 0; 0; 0] /\
  subnet_mask_bytes_from_prefix 7 4 = [254; 0; 0; 0] /\
  subnet_mask_bytes_from_prefix 8 4 = [255; 0; 0; 0] /\
  subnet_mask_bytes_from_prefix 9 4 = [255; 128; 0; 0] /\
  subnet_mask_bytes_from_prefix 10 4 = [255; 192; 0; 0] /\
  subnet_mask_bytes_from_prefix 11 4 = [255; 224; 0; 0] /\
  subnet_mask_bytes_from_prefix 12 4 = [255; 240; 0; 0] /\
  subnet_mask_bytes_from_prefix 13 4 = [255; 248; 0; 0] /\
  subnet_mask_bytes_from_prefix 14 4 = [255; 252; 0; 0] /\
  subnet_mask_bytes_from_prefix 15 4 = [255; 254; 0; 0] /\
  subnet_mask_bytes_from_prefix 16 4 = [255; 255; 0; 0] /\
  subnet_mask_bytes_from_prefix 17 4 = [255; 255; 128; 0] /\
  subnet_mask_bytes_from_prefix 18 4 = [255; 255; 192; 0] /\
  subnet_mask_bytes_from_prefix 19 4 = [255; 255; 224; 0] /\
  subnet_mask_bytes_from_prefix 20 4 = [255; 255; 240; 0] /\
  subnet_mask_bytes_from_prefix 21 4 = [255; 255; 248; 0] /\
  subnet_mask_bytes_from_prefix 22 4 = [255; 255; 252; 0] /\
  subnet_mask_bytes_from_prefix 23 4 = [255; 255; 254; 0] /\
  subnet_mask_bytes_from_prefix 24 4 = [255; 255; 255; 0] /\
  subnet_mask_bytes_from_prefix 25 4 = [255; 255; 255; 128] /\
  subnet_mask_bytes_from_prefix 26 4 = [255; 255; 255; 192] /\
  subnet_mask_bytes_from_prefix 27 4 = [255; 255; 255; 224] /\
  subnet_mask_bytes_from_prefix 28 4 = [255; 255; 255; 240] /\
  subnet_mask_bytes_from_prefix 29 4 = [255; 255; 255; 248] /\
  subnet_mask_bytes_from_prefix 30 4 = [255; 255; 255; 252] /\
  subnet_mask_bytes_from_prefix 31 4 = [255; 255; 255; 254] /\
  subnet_mask_bytes_from_prefix 32 4 = [255; 255; 255; 255].
Proof. tested. Qed.

(** net.rs:292-406 *)
Definition n_ipv4_new_with_mask_1 := new_with_mask (p4 "127.0.0.1") (p4 "255.0.0.0").
Definition n_ipv4_new_with_mask_2 := new_with_mask (p4 "127.0.0.1") (p4 "255.0.255.0").
Definition n_ipv4_new_with_mask_3 := new_with_mask (p4 "127.0.0.1") (p4 "255.255.255.255").
Definition n_ipv4_new_with_mask_4 := new_with_mask (p4 "127.0.0.1") (p4 "255.255.255.254").
Definition n_ipv4_new_with_mask_5 := new_with_mask (p4 "0.0.0.0") (p4 "0.0.0.0").
Example test_net_ipv4_new_with_mask :
  base_addr n_ipv4_new_with_mask_1 = (p4 "127.0.0.0") /\
  subnet_mask n_ipv4_new_with_mask_1 = (p4 "255.0.0.0") /\
  cidr_prefix n_ipv4_new_with_mask_1 = (Some 8) /\
  cisco_wildcard n_ipv4_new_with_mask_1 = (p4 "0.255.255.255") /\
  first_host_addr n_ipv4_new_with_mask_1 = Ret (Some (p4 "127.0.0.1")) /\
  broadcast_addr n_ipv4_new_with_mask_1 = Ret (Some (p4 "127.255.255.255")) /\
  last_host_addr n_ipv4_new_with_mask_1 = Ret (Some (p4 "127.255.255.254")) /\
  next_subnet_base_addr n_ipv4_new_with_mask_1 = Ret (Some (p4 "128.0.0.0")) /\
  contains n_ipv4_new_with_mask_1 (base_addr n_ipv4_new_with_mask_1) = true /\
  (o <- first_host_addr n_ipv4_new_with_mask_1 ;; x <- unwrap o ;; Ret (contains n_ipv4_new_with_mask_1 x)) = Ret true /\
  contains n_ipv4_new_with_mask_1 (p4 "127.31.41.59") = true /\
  (o <- last_host_addr n_ipv4_new_with_mask_1 ;; x <- unwrap o ;; Ret (contains n_ipv4_new_with_mask_1 x)) = Ret true /\
  (o <- broadcast_addr n_ipv4_new_with_mask_1 ;; x <- unwrap o ;; Ret (contains n_ipv4_new_with_mask_1 x)) = Ret true /\
  (o <- next_subnet_base_addr n_ipv4_new_with_mask_1 ;; x <- unwrap o ;; Ret (contains n_ipv4_new_with_mask_1 x)) = Ret false /\
  address_count n_ipv4_new_with_mask_1 = (16777216) /\
  host_count n_ipv4_new_with_mask_1 = (16777214)%Z /\
  base_addr n_ipv4_new_with_mask_2 = (p4 "127.0.0.0") /\
  subnet_mask n_ipv4_new_with_mask_2 = (p4 "255.0.255.0") /\
  cidr_prefix n_ipv4_new_with_mask_2 = None /\
  cisco_wildcard n_ipv4_new_with_mask_2 = (p4 "0.255.0.255") /\
  first_host_addr n_ipv4_new_with_mask_2 = Ret (Some (p4 "127.0.0.1")) /\
  broadcast_addr n_ipv4_new_with_mask_2 = Ret (Some (p4 "127.255.0.255")) /\
  last_host_addr n_ipv4_new_with_mask_2 = Ret (Some (p4 "127.255.0.254")) /\
  next_subnet_base_addr n_ipv4_new_with_mask_2 = Ret (Some (p4 "127.0.1.0")) /\
  contains n_ipv4_new_with_mask_2 (base_addr n_ipv4_new_with_mask_2) = true /\
  (o <- first_host_addr n_ipv4_new_with_mask_2 ;; x <- unwrap o ;; Ret (contains n_ipv4_new_with_mask_2 x)) = Ret true /\
  contains n_ipv4_new_with_mask_2 (p4 "127.31.0.59") = true /\
  (o <- last_host_addr n_ipv4_new_with_mask_2 ;; x <- unwrap o ;; Ret (contains n_ipv4_new_with_mask_2 x)) = Ret true /\
  (o <- broadcast_addr n_ipv4_new_with_mask_2 ;; x <- unwrap o ;; Ret (contains n_ipv4_new_with_mask_2 x)) = Ret true /\
  (o <- next_subnet_base_addr n_ipv4_new_with_mask_2 ;; x <- unwrap o ;; Ret (contains n_ipv4_new_with_mask_2 x)) = Ret false /\
  address_count n_ipv4_new_with_mask_2 = (65536) /\
  host_count n_ipv4_new_with_mask_2 = (65534)%Z /\
  base_addr n_ipv4_new_with_mask_3 = (p4 "127.0.0.1") /\
  subnet_mask n_ipv4_new_with_mask_3 = (p4 "255.255.255.255") /\
  cidr_prefix n_ipv4_new_with_mask_3 = (Some 32) /\
  cisco_wildcard n_ipv4_new_with_mask_3 = (p4 "0.0.0.0") /\
  first_host_addr n_ipv4_new_with_mask_3 = Ret None /\
  broadcast_addr n_ipv4_new_with_mask_3 = Ret None /\
  last_host_addr n_ipv4_new_with_mask_3 = Ret None /\
  next_subnet_base_addr n_ipv4_new_with_mask_3 = Ret (Some (p4 "127.0.0.2")) /\
  contains n_ipv4_new_with_mask_3 (base_addr n_ipv4_new_with_mask_3) = true /\
  contains n_ipv4_new_with_mask_3 (p4 "127.0.0.0") = false /\
  contains n_ipv4_new_with_mask_3 (p4 "127.0.0.2") = false /\
  (o <- next_subnet_base_addr n_ipv4_new_with_mask_3 ;; x <- unwrap o ;; Ret (contains n_ipv4_new_with_mask_3 x)) = Ret false /\
  address_count n_ipv4_new_with_mask_3 = (1) /\
  host_count n_ipv4_new_with_mask_3 = (-1)%Z /\
  base_addr n_ipv4_new_with_mask_4 = (p4 "127.0.0.0") /\
  subnet_mask n_ipv4_new_with_mask_4 = (p4 "255.255.255.254") /\
  cidr_prefix n_ipv4_new_with_mask_4 = (Some 31) /\
  cisco_wildcard n_ipv4_new_with_mask_4 = (p4 "0.0.0.1") /\
  first_host_addr n_ipv4_new_with_mask_4 = Ret None /\
  broadcast_addr n_ipv4_new_with_mask_4 = Ret (Some (p4 "127.0.0.1")) /\
  last_host_addr n_ipv4_new_with_mask_4 = Ret None /\
  next_subnet_base_addr n_ipv4_new_with_mask_4 = Ret (Some (p4 "127.0.0.2")) /\
  contains n_ipv4_new_with_mask_4 (base_addr n_ipv4_new_with_mask_4) = true /\
  (o <- broadcast_addr n_ipv4_new_with_mask_4 ;; x <- unwrap o ;; Ret (contains n_ipv4_new_with_mask_4 x)) = Ret true /\
  (o <- next_subnet_base_addr n_ipv4_new_with_mask_4 ;; x <- unwrap o ;; Ret (contains n_ipv4_new_with_mask_4 x)) = Ret false /\
  address_count n_ipv4_new_with_mask_4 = (2) /\
  host_count n_ipv4_new_with_mask_4 = (0)%Z /\
  base_addr n_ipv4_new_with_mask_5 = (p4 "0.0.0.0") /\
  subnet_mask n_ipv4_new_with_mask_5 = (p4 "0.0.0.0") /\
  cidr_prefix n_ipv4_new_with_mask_5 = (Some 0) /\
  cisco_wildcard n_ipv4_new_with_mask_5 = (p4 "255.255.255.255") /\
  first_host_addr n_ipv4_new_with_mask_5 = Ret (Some (p4 "0.0.0.1")) /\
  broadcast_addr n_ipv4_new_with_mask_5 = Ret (Some (p4 "255.255.255.255")) /\
  last_host_addr n_ipv4_new_with_mask_5 = Ret (Some (p4 "255.255.255.254")) /\
  next_subnet_base_addr n_ipv4_new_with_mask_5 = Ret None /\
  contains n_ipv4_new_with_mask_5 (base_addr n_ipv4_new_with_mask_5) = true /\
  (o <- first_host_addr n_ipv4_new_with_mask_5 ;; x <- unwrap o ;; Ret (contains n_ipv4_new_with_mask_5 x)) = Ret true /\
  contains n_ipv4_new_with_mask_5 (p4 "31.41.59.26") = true /\
  (o <- last_host_addr n_ipv4_new_with_mask_5 ;; x <- unwrap o ;; Ret (contains n_ipv4_new_with_mask_5 x)) = Ret true /\
  (o <- broadcast_addr n_ipv4_new_with_mask_5 ;; x <- unwrap o ;; Ret (contains n_ipv4_new_with_mask_5 x)) = Ret true /\
  address_count n_ipv4_new_with_mask_5 = (4294967296) /\
  host_count n_ipv4_new_with_mask_5 = (4294967294)%Z.
Proof. tested. Qed.

(** net.rs:409-521 *)
Definition n_ipv6_new_with_mask_1 := new_with_mask (p6 "fe80::1") (p6 "ffc0::").
Definition n_ipv6_new_with_mask_2 := new_with_mask (p6 "1234:1234:1234:1234:1234:1234:1234:1234") (p6 "ffff:0000:ffff:0000:0000:ffff:0000:ffff").
Definition n_ipv6_new_with_mask_3 := new_with_mask (p6 "::1") (p6 "ffff:ffff:ffff:ffff:ffff:ffff:ffff:ffff").
Definition n_ipv6_new_with_mask_4 := new_with_mask (p6 "fe80::3") (p6 "ffff:ffff:ffff:ffff:ffff:ffff:ffff:fffe").
Definition n_ipv6_new_with_mask_5 := new_with_mask (p6 "::") (p6 "::").
Example test_net_ipv6_new_with_mask :
  base_addr n_ipv6_new_with_mask_1 = (p6 "fe80::") /\
  subnet_mask n_ipv6_new_with_mask_1 = (p6 "ffc0::") /\
  cidr_prefix n_ipv6_new_with_mask_1 = (Some 10) /\
  cisco_wildcard n_ipv6_new_with_mask_1 = (p6 "3f:ffff:ffff:ffff:ffff:ffff:ffff:ffff") /\
  first_host_addr n_ipv6_new_with_mask_1 = Ret (Some (p6 "fe80::1")) /\
  broadcast_addr n_ipv6_new_with_mask_1 = Ret (Some (p6 "febf:ffff:ffff:ffff:ffff:ffff:ffff:ffff")) /\
  last_host_addr n_ipv6_new_with_mask_1 = Ret (Some (p6 "febf:ffff:ffff:ffff:ffff:ffff:ffff:fffe")) /\
  next_subnet_base_addr n_ipv6_new_with_mask_1 = Ret (Some (p6 "fec0::")) /\
  contains n_ipv6_new_with_mask_1 (base_addr n_ipv6_new_with_mask_1) = true /\
  (o <- first_host_addr n_ipv6_new_with_mask_1 ;; x <- unwrap o ;; Ret (contains n_ipv6_new_with_mask_1 x)) = Ret true /\
  contains n_ipv6_new_with_mask_1 (p6 "feab:1234:5678:1234:5678:1234:5678:1234") = true /\
  (o <- last_host_addr n_ipv6_new_with_mask_1 ;; x <- unwrap o ;; Ret (contains n_ipv6_new_with_mask_1 x)) = Ret true /\
  (o <- broadcast_addr n_ipv6_new_with_mask_1 ;; x <- unwrap o ;; Ret (contains n_ipv6_new_with_mask_1 x)) = Ret true /\
  (o <- next_subnet_base_addr n_ipv6_new_with_mask_1 ;; x <- unwrap o ;; Ret (contains n_ipv6_new_with_mask_1 x)) = Ret false /\
  address_count n_ipv6_new_with_mask_1 = (332306998946228968225951765070086144) /\
  host_count n_ipv6_new_with_mask_1 = (332306998946228968225951765070086142)%Z /\
  base_addr n_ipv6_new_with_mask_2 = (p6 "1234:0000:1234:0000:0000:1234:0000:1234") /\
  subnet_mask n_ipv6_new_with_mask_2 = (p6 "ffff:0000:ffff:0000:0000:ffff:0000:ffff") /\
  cidr_prefix n_ipv6_new_with_mask_2 = None /\
  cisco_wildcard n_ipv6_new_with_mask_2 = (p6 "0000:ffff:0000:ffff:ffff:0000:ffff:0000") /\
  first_host_addr n_ipv6_new_with_mask_2 = Ret (Some (p6 "1234:0000:1234:0000:0000:1234:0001:1234")) /\
  broadcast_addr n_ipv6_new_with_mask_2 = Ret (Some (p6 "1234:ffff:1234:ffff:ffff:1234:ffff:1234")) /\
  last_host_addr n_ipv6_new_with_mask_2 = Ret (Some (p6 "1234:ffff:1234:ffff:ffff:1234:fffe:1234")) /\
  next_subnet_base_addr n_ipv6_new_with_mask_2 = Ret (Some (p6 "1234:0000:1234:0000:0000:1234:0000:1235")) /\
  contains n_ipv6_new_with_mask_2 (base_addr n_ipv6_new_with_mask_2) = true /\
  (o <- first_host_addr n_ipv6_new_with_mask_2 ;; x <- unwrap o ;; Ret (contains n_ipv6_new_with_mask_2 x)) = Ret true /\
  contains n_ipv6_new_with_mask_2 (p6 "1234:3141:1234:5926:5358:1234:9793:1234") = true /\
  (o <- last_host_addr n_ipv6_new_with_mask_2 ;; x <- unwrap o ;; Ret (contains n_ipv6_new_with_mask_2 x)) = Ret true /\
  (o <- broadcast_addr n_ipv6_new_with_mask_2 ;; x <- unwrap o ;; Ret (contains n_ipv6_new_with_mask_2 x)) = Ret true /\
  (o <- next_subnet_base_addr n_ipv6_new_with_mask_2 ;; x <- unwrap o ;; Ret (contains n_ipv6_new_with_mask_2 x)) = Ret false /\
  address_count n_ipv6_new_with_mask_2 = (18446744073709551616) /\
  host_count n_ipv6_new_with_mask_2 = (18446744073709551614)%Z /\
  base_addr n_ipv6_new_with_mask_3 = (p6 "::1") /\
  subnet_mask n_ipv6_new_with_mask_3 = (p6 "ffff:ffff:ffff:ffff:ffff:ffff:ffff:ffff") /\
  cidr_prefix n_ipv6_new_with_mask_3 = (Some 128) /\
  cisco_wildcard n_ipv6_new_with_mask_3 = (p6 "::") /\
  first_host_addr n_ipv6_new_with_mask_3 = Ret None /\
  broadcast_addr n_ipv6_new_with_mask_3 = Ret None /\
  last_host_addr n_ipv6_new_with_mask_3 = Ret None /\
  next_subnet_base_addr n_ipv6_new_with_mask_3 = Ret (Some (p6 "::2")) /\
  contains n_ipv6_new_with_mask_3 (base_addr n_ipv6_new_with_mask_3) = true /\
  (o <- next_subnet_base_addr n_ipv6_new_with_mask_3 ;; x <- unwrap o ;; Ret (contains n_ipv6_new_with_mask_3 x)) = Ret false /\
  address_count n_ipv6_new_with_mask_3 = (1) /\
  host_count n_ipv6_new_with_mask_3 = (-1)%Z /\
  base_addr n_ipv6_new_with_mask_4 = (p6 "fe80::2") /\
  subnet_mask n_ipv6_new_with_mask_4 = (p6 "ffff:ffff:ffff:ffff:ffff:ffff:ffff:fffe") /\
  cidr_prefix n_ipv6_new_with_mask_4 = (Some 127) /\
  cisco_wildcard n_ipv6_new_with_mask_4 = (p6 "::1") /\
  first_host_addr n_ipv6_new_with_mask_4 = Ret None /\
  broadcast_addr n_ipv6_new_with_mask_4 = Ret (Some (p6 "fe80::3")) /\
  last_host_addr n_ipv6_new_with_mask_4 = Ret None /\
  next_subnet_base_addr n_ipv6_new_with_mask_4 = Ret (Some (p6 "fe80::4")) /\
  contains n_ipv6_new_with_mask_4 (base_addr n_ipv6_new_with_mask_4) = true /\
  (o <- broadcast_addr n_ipv6_new_with_mask_4 ;; x <- unwrap o ;; Ret (contains n_ipv6_new_with_mask_4 x)) = Ret true /\
  (o <- next_subnet_base_addr n_ipv6_new_with_mask_4 ;; x <- unwrap o ;; Ret (contains n_ipv6_new_with_mask_4 x)) = Ret false /\
  address_count n_ipv6_new_with_mask_4 = (2) /\
  host_count n_ipv6_new_with_mask_4 = (0)%Z /\
  base_addr n_ipv6_new_with_mask_5 = (p6 "::") /\
  subnet_mask n_ipv6_new_with_mask_5 = (p6 "::") /\
  cidr_prefix n_ipv6_new_with_mask_5 = (Some 0) /\
  cisco_wildcard n_ipv6_new_with_mask_5 = (p6 "ffff:ffff:ffff:ffff:ffff:ffff:ffff:ffff") /\
  first_host_addr n_ipv6_new_with_mask_5 = Ret (Some (p6 "::1")) /\
  broadcast_addr n_ipv6_new_with_mask_5 = Ret (Some (p6 "ffff:ffff:ffff:ffff:ffff:ffff:ffff:ffff")) /\
  last_host_addr n_ipv6_new_with_mask_5 = Ret (Some (p6 "ffff:ffff:ffff:ffff:ffff:ffff:ffff:fffe")) /\
  next_subnet_base_addr n_ipv6_new_with_mask_5 = Ret None /\
  contains n_ipv6_new_with_mask_5 (base_addr n_ipv6_new_with_mask_5) = true /\
  (o <- first_host_addr n_ipv6_new_with_mask_5 ;; x <- unwrap o ;; Ret (contains n_ipv6_new_with_mask_5 x)) = Ret true /\
  contains n_ipv6_new_with_mask_5 (p6 "1234:3141:1234:5926:5358:1234:9793:1234") = true /\
  (o <- last_host_addr n_ipv6_new_with_mask_5 ;; x <- unwrap o ;; Ret (contains n_ipv6_new_with_mask_5 x)) = Ret true /\
  (o <- broadcast_addr n_ipv6_new_with_mask_5 ;; x <- unwrap o ;; Ret (contains n_ipv6_new_with_mask_5 x)) = Ret true /\
  address_count n_ipv6_new_with_mask_5 = (340282366920938463463374607431768211456) /\
  host_count n_ipv6_new_with_mask_5 = (340282366920938463463374607431768211454)%Z.
Proof. tested. Qed.

(** net.rs:524-540 *)
Definition n_ipv4_new_with_prefix_1 := got4 (new_with_prefix (p4 "127.0.0.1") 8).
Definition n_ipv4_new_with_prefix_2 := got4 (new_with_prefix (p4 "1.2.3.4") 24).
Example test_net_ipv4_new_with_prefix :
  base_addr n_ipv4_new_with_prefix_1 = (p4 "127.0.0.0") /\
  subnet_mask n_ipv4_new_with_prefix_1 = (p4 "255.0.0.0") /\
  cidr_prefix n_ipv4_new_with_prefix_1 = (Some 8) /\
  base_addr n_ipv4_new_with_prefix_2 = (p4 "1.2.3.0") /\
  subnet_mask n_ipv4_new_with_prefix_2 = (p4 "255.255.255.0") /\
  cidr_prefix n_ipv4_new_with_prefix_2 = (Some 24).
Proof. tested. Qed.

(** net.rs:543-551 *)
Definition n_ipv6_new_with_prefix_1 := got6 (new_with_prefix (p6 "feba::") 10).
Example test_net_ipv6_new_with_prefix :
  base_addr n_ipv6_new_with_prefix_1 = (p6 "fe80::") /\
  subnet_mask n_ipv6_new_with_prefix_1 = (p6 "ffc0::") /\
  cidr_prefix n_ipv6_new_with_prefix_1 = (Some 10).
Proof. tested. Qed.

(** net.rs:554-627 *)
Example test_net_ipv4_new_with_mask_strict :
  is_some (new_with_mask_strict (p4 "127.0.0.0") (p4 "255.0.0.0")) = true /\
  is_some (new_with_mask_strict (p4 "127.0.0.1") (p4 "255.0.0.0")) = false /\
  is_some (new_with_mask_strict (p4 "127.0.0.0") (p4 "255.0.255.0")) = true /\
  is_some (new_with_mask_strict (p4 "127.0.0.1") (p4 "255.0.255.0")) = false /\
  is_some (new_with_mask_strict (p4 "127.0.0.1") (p4 "255.255.255.255")) = true /\
  is_some (new_with_mask_strict (p4 "127.0.0.0") (p4 "255.255.255.254")) = true /\
  is_some (new_with_mask_strict (p4 "127.0.0.1") (p4 "255.255.255.254")) = false /\
  is_some (new_with_mask_strict (p4 "0.0.0.0") (p4 "0.0.0.0")) = true /\
  is_some (new_with_mask_strict (p4 "5.0.0.0") (p4 "0.0.0.0")) = false.
Proof. tested. Qed.

(** net.rs:630-703 *)
Example test_net_ipv6_new_with_mask_strict :
  is_some (new_with_mask_strict (p6 "fe80::") (p6 "ffc0::")) = true /\
  is_some (new_with_mask_strict (p6 "fe80::1") (p6 "ffc0::")) = false /\
  is_some (new_with_mask_strict (p6 "1234:0:1234::1234:0:1234") (p6 "ffff:0000:ffff:0000:0000:ffff:0000:ffff")) = true /\
  is_some (new_with_mask_strict (p6 "1234:1234:1234:1234:1234:1234:1234:1234") (p6 "ffff:0000:ffff:0000:0000:ffff:0000:ffff")) = false /\
  is_some (new_with_mask_strict (p6 "::1") (p6 "ffff:ffff:ffff:ffff:ffff:ffff:ffff:ffff")) = true /\
  is_some (new_with_mask_strict (p6 "fe80::2") (p6 "ffff:ffff:ffff:ffff:ffff:ffff:ffff:fffe")) = true /\
  is_some (new_with_mask_strict (p6 "fe80::3") (p6 "ffff:ffff:ffff:ffff:ffff:ffff:ffff:fffe")) = false /\
  is_some (new_with_mask_strict (p6 "::") (p6 "::")) = true /\
  is_some (new_with_mask_strict (p6 "1::") (p6 "::")) = false.
Proof. tested. Qed.

(** net.rs:706-722 *)
Definition n_ipv4_new_with_prefix_strict_1 := got4 (new_with_prefix (p4 "127.0.0.1") 8).
Definition n_ipv4_new_with_prefix_strict_2 := got4 (new_with_prefix (p4 "1.2.3.4") 24).
Example test_net_ipv4_new_with_prefix_strict :
  base_addr n_ipv4_new_with_prefix_strict_1 = (p4 "127.0.0.0") /\
  subnet_mask n_ipv4_new_with_prefix_strict_1 = (p4 "255.0.0.0") /\
  cidr_prefix n_ipv4_new_with_prefix_strict_1 = (Some 8) /\
  base_addr n_ipv4_new_with_prefix_strict_2 = (p4 "1.2.3.0") /\
  subnet_mask n_ipv4_new_with_prefix_strict_2 = (p4 "255.255.255.0") /\
  cidr_prefix n_ipv4_new_with_prefix_strict_2 = (Some 24).
Proof. tested. Qed.

(** net.rs:725-733 *)
Definition n_ipv6_new_with_prefix_strict_1 := got6 (new_with_prefix (p6 "feba::") 10).
Example test_net_ipv6_new_with_prefix_strict :
  base_addr n_ipv6_new_with_prefix_strict_1 = (p6 "fe80::") /\
  subnet_mask n_ipv6_new_with_prefix_strict_1 = (p6 "ffc0::") /\
  cidr_prefix n_ipv6_new_with_prefix_strict_1 = (Some 10).
Proof. tested. Qed.

(** cmds/derange.rs:92-104 *)
Example test_derange_derange_single_subnet :
  range_to_subnets (p4 "192.0.2.0") (p4 "192.0.2.255") = Ret [
    (net4 "192.0.2.0" 24) ] /\
  range_to_subnets (p6 "2001:db8::") (p6 "2001:db8::ffff:ffff:ffff:ffff") = Ret [
    (net6 "2001:db8::" 64) ].
Proof. tested. Qed.

(** cmds/derange.rs:107-161 *)
Example test_derange_derange_multiple_subnets :
  range_to_subnets (p4 "192.0.2.1") (p4 "192.0.2.254") = Ret [
    (net4 "192.0.2.1" 32);
    (net4 "192.0.2.2" 31);
    (net4 "192.0.2.4" 30);
    (net4 "192.0.2.8" 29);
    (net4 "192.0.2.16" 28);
    (net4 "192.0.2.32" 27);
    (net4 "192.0.2.64" 26);
    (net4 "192.0.2.128" 26);
    (net4 "192.0.2.192" 27);
    (net4 "192.0.2.224" 28);
    (net4 "192.0.2.240" 29);
    (net4 "192.0.2.248" 30);
    (net4 "192.0.2.252" 31);
    (net4 "192.0.2.254" 32) ] /\
  range_to_subnets (p6 "2001:db8::1") (p6 "2001:db8::fffe") = Ret [
    (net6 "2001:db8::1" 128);
    (net6 "2001:db8::2" 127);
    (net6 "2001:db8::4" 126);
    (net6 "2001:db8::8" 125);
    (net6 "2001:db8::10" 124);
    (net6 "2001:db8::20" 123);
    (net6 "2001:db8::40" 122);
    (net6 "2001:db8::80" 121);
    (net6 "2001:db8::100" 120);
    (net6 "2001:db8::200" 119);
    (net6 "2001:db8::400" 118);
    (net6 "2001:db8::800" 117);
    (net6 "2001:db8::1000" 116);
    (net6 "2001:db8::2000" 115);
    (net6 "2001:db8::4000" 114);
    (net6 "2001:db8::8000" 114);
    (net6 "2001:db8::c000" 115);
    (net6 "2001:db8::e000" 116);
    (net6 "2001:db8::f000" 117);
    (net6 "2001:db8::f800" 118);
    (net6 "2001:db8::fc00" 119);
    (net6 "2001:db8::fe00" 120);
    (net6 "2001:db8::ff00" 121);
    (net6 "2001:db8::ff80" 122);
    (net6 "2001:db8::ffc0" 123);
    (net6 "2001:db8::ffe0" 124);
    (net6 "2001:db8::fff0" 125);
    (net6 "2001:db8::fff8" 126);
    (net6 "2001:db8::fffc" 127);
    (net6 "2001:db8::fffe" 128) ].
Proof. tested. Qed.

(** cmds/enumerate.rs:92-132 *)
Example test_enumerate_enumerate_subnet :
  (it <- iter_new (net4 "192.0.2.64" 28) ;; nexts 18 it) = Ret [
    (Some (p4 "192.0.2.64"));
    (Some (p4 "192.0.2.65"));
    (Some (p4 "192.0.2.66"));
    (Some (p4 "192.0.2.67"));
    (Some (p4 "192.0.2.68"));
    (Some (p4 "192.0.2.69"));
    (Some (p4 "192.0.2.70"));
    (Some (p4 "192.0.2.71"));
    (Some (p4 "192.0.2.72"));
    (Some (p4 "192.0.2.73"));
    (Some (p4 "192.0.2.74"));
    (Some (p4 "192.0.2.75"));
    (Some (p4 "192.0.2.76"));
    (Some (p4 "192.0.2.77"));
    (Some (p4 "192.0.2.78"));
    (Some (p4 "192.0.2.79"));
    None;
    None ] /\
  (it <- iter_new (net6 "2001:db8::10" 124) ;; nexts 18 it) = Ret [
    (Some (p6 "2001:db8::10"));
    (Some (p6 "2001:db8::11"));
    (Some (p6 "2001:db8::12"));
    (Some (p6 "2001:db8::13"));
    (Some (p6 "2001:db8::14"));
    (Some (p6 "2001:db8::15"));
    (Some (p6 "2001:db8::16"));
    (Some (p6 "2001:db8::17"));
    (Some (p6 "2001:db8::18"));
    (Some (p6 "2001:db8::19"));
    (Some (p6 "2001:db8::1a"));
    (Some (p6 "2001:db8::1b"));
    (Some (p6 "2001:db8::1c"));
    (Some (p6 "2001:db8::1d"));
    (Some (p6 "2001:db8::1e"));
    (Some (p6 "2001:db8::1f"));
    None;
    None ].
Proof. tested. Qed.

(** cmds/enumerate.rs:135-175 *)
Example test_enumerate_enumerate_mixed_subnet :
  (it <- iter_new (netm4 "192.64.2.0" "255.240.255.255") ;; nexts 18 it) = Ret [
    (Some (p4 "192.64.2.0"));
    (Some (p4 "192.65.2.0"));
    (Some (p4 "192.66.2.0"));
    (Some (p4 "192.67.2.0"));
    (Some (p4 "192.68.2.0"));
    (Some (p4 "192.69.2.0"));
    (Some (p4 "192.70.2.0"));
    (Some (p4 "192.71.2.0"));
    (Some (p4 "192.72.2.0"));
    (Some (p4 "192.73.2.0"));
    (Some (p4 "192.74.2.0"));
    (Some (p4 "192.75.2.0"));
    (Some (p4 "192.76.2.0"));
    (Some (p4 "192.77.2.0"));
    (Some (p4 "192.78.2.0"));
    (Some (p4 "192.79.2.0"));
    None;
    None ] /\
  (it <- iter_new (netm6 "2001:db8::1042" "ffff:ffff:ffff:ffff:ffff:ffff:ffff:f0ff") ;; nexts 18 it) = Ret [
    (Some (p6 "2001:db8::1042"));
    (Some (p6 "2001:db8::1142"));
    (Some (p6 "2001:db8::1242"));
    (Some (p6 "2001:db8::1342"));
    (Some (p6 "2001:db8::1442"));
    (Some (p6 "2001:db8::1542"));
    (Some (p6 "2001:db8::1642"));
    (Some (p6 "2001:db8::1742"));
    (Some (p6 "2001:db8::1842"));
    (Some (p6 "2001:db8::1942"));
    (Some (p6 "2001:db8::1a42"));
    (Some (p6 "2001:db8::1b42"));
    (Some (p6 "2001:db8::1c42"));
    (Some (p6 "2001:db8::1d42"));
    (Some (p6 "2001:db8::1e42"));
    (Some (p6 "2001:db8::1f42"));
    None;
    None ].
Proof. tested. Qed.

(** cmds/minimize.rs:144-177 *)
Example test_minimize_minimize :
  minimize_subnets [
    (net4 "128.132.0.0" 16);
    (net4 "128.133.0.0" 16);
    (net4 "128.130.0.0" 16);
    (net4 "128.131.0.0" 16);
    (net4 "192.35.240.0" 22);
    (net4 "192.35.244.0" 24);
    (net4 "193.170.72.0" 21);
    (net4 "193.170.72.0" 22);
    (net4 "193.170.76.0" 23);
    (net4 "193.170.78.0" 24) ] = Ret [
    (net4 "128.130.0.0" 15);
    (net4 "128.132.0.0" 15);
    (net4 "192.35.240.0" 22);
    (net4 "192.35.244.0" 24);
    (net4 "193.170.72.0" 21) ] /\
  minimize_subnets [
    (net6 "2001:db8:1::" 48);
    (net6 "2001:db8:3::" 48);
    (net6 "2001:db8:2::" 48);
    (net6 "2001:db8:4::" 48) ] = Ret [
    (net6 "2001:db8:1::" 48);
    (net6 "2001:db8:2::" 47);
    (net6 "2001:db8:4::" 48) ].
Proof. tested. Qed.

(** cmds/minimize.rs:180-203 *)
Example test_minimize_minimize_mixed :
  minimize_subnets [
    (netm4 "128.0.0.130" "255.0.0.255");
    (netm4 "128.0.0.132" "255.0.0.255");
    (netm4 "128.0.0.131" "255.0.0.255");
    (netm4 "128.0.0.133" "255.0.0.255") ] = Ret [
    (netm4 "128.0.0.130" "255.0.0.254");
    (netm4 "128.0.0.132" "255.0.0.254") ] /\
  minimize_subnets [
    (netm6 "2001:db8::1" "ffff:ffff::ffff");
    (netm6 "2001:db8::3" "ffff:ffff::ffff");
    (netm6 "2001:db8::2" "ffff:ffff::ffff");
    (netm6 "2001:db8::4" "ffff:ffff::ffff") ] = Ret [
    (netm6 "2001:db8::1" "ffff:ffff::ffff");
    (netm6 "2001:db8::2" "ffff:ffff::fffe");
    (netm6 "2001:db8::4" "ffff:ffff::ffff") ].
Proof. tested. Qed.

(** cmds/resize.rs:166-226 *)
Example test_resize_resize_ipv4 :
  resize_network (net4 "192.0.2.0" 24) (p4 "255.255.255.0") = Ret ([
    (net4 "192.0.2.0" 24) ], Eq) /\
  resize_network (net4 "192.0.2.0" 24) (p4 "255.0.255.255") = Ret ([
    (netm4 "192.0.0.2" "255.0.255.255") ], Eq) /\
  resize_network (net4 "192.0.2.0" 24) (p4 "255.255.255.192") = Ret ([
    (net4 "192.0.2.0" 26);
    (net4 "192.0.2.64" 26);
    (net4 "192.0.2.128" 26);
    (net4 "192.0.2.192" 26) ], Gt) /\
  resize_network (net4 "192.0.2.0" 24) (p4 "255.255.192.255") = Ret ([
    (netm4 "192.0.0.8" "255.255.192.255");
    (netm4 "192.0.0.9" "255.255.192.255");
    (netm4 "192.0.0.10" "255.255.192.255");
    (netm4 "192.0.0.11" "255.255.192.255") ], Gt) /\
  resize_network (net4 "192.0.2.0" 24) (p4 "255.255.0.0") = Ret ([
    (net4 "192.0.0.0" 16) ], Lt) /\
  resize_network (net4 "192.0.2.0" 24) (p4 "255.0.255.0") = Ret ([
    (netm4 "192.0.0.0" "255.0.255.0") ], Lt).
Proof. tested. Qed.

(** cmds/resize.rs:229-289 *)
Example test_resize_resize_ipv6 :
  resize_network (net6 "2001:db8::" 64) (p6 "ffff:ffff:ffff:ffff::") = Ret ([
    (net6 "2001:db8::" 64) ], Eq) /\
  resize_network (net6 "2001:db8::" 64) (p6 "ffff:0:ffff:ffff:ffff::") = Ret ([
    (netm6 "2001:0:db8::" "ffff:0:ffff:ffff:ffff::") ], Eq) /\
  resize_network (net6 "2001:db8::" 64) (p6 "ffff:ffff:ffff:ffff:c000::") = Ret ([
    (net6 "2001:db8::" 66);
    (net6 "2001:db8:0:0:4000::" 66);
    (net6 "2001:db8:0:0:8000::" 66);
    (net6 "2001:db8:0:0:c000::" 66) ], Gt) /\
  resize_network (net6 "2001:db8::" 64) (p6 "ffff:ffff:ffff:ffff:0:c000::") = Ret ([
    (netm6 "2001:db8::" "ffff:ffff:ffff:ffff:0:c000::");
    (netm6 "2001:db8:0:0:0:4000::" "ffff:ffff:ffff:ffff:0:c000::");
    (netm6 "2001:db8:0:0:0:8000::" "ffff:ffff:ffff:ffff:0:c000::");
    (netm6 "2001:db8:0:0:0:c000::" "ffff:ffff:ffff:ffff:0:c000::") ], Gt) /\
  resize_network (net6 "2001:db8:1234:1234::" 64) (p6 "ffff:ffff:ffff::") = Ret ([
    (net6 "2001:db8:1234::" 48) ], Lt) /\
  resize_network (net6 "2001:db8:1234:1234::" 64) (p6 "ffff:ffff:0:ffff::") = Ret ([
    (netm6 "2001:db8:0:1234::" "ffff:ffff:0:ffff::") ], Lt).
Proof. tested. Qed.

(** cmds/split.rs:146-209 *)
Example test_split_split_ipv4 :
  split_subnet (net4 "192.0.2.0" 24) [10%Z] = Ret (Some [
    (net4 "192.0.2.0" 28) ]) /\
  split_subnet (net4 "192.0.2.0" 24) [60%Z; 60%Z; 60%Z; 60%Z] = Ret (Some [
    (net4 "192.0.2.0" 26);
    (net4 "192.0.2.64" 26);
    (net4 "192.0.2.128" 26);
    (net4 "192.0.2.192" 26) ]) /\
  split_subnet (net4 "192.0.2.0" 24) [60%Z; 60%Z; 60%Z; 60%Z; 60%Z] = Ret (Some [
    (net4 "192.0.2.0" 26);
    (net4 "192.0.2.64" 26);
    (net4 "192.0.2.128" 26);
    (net4 "192.0.2.192" 26);
    (net4 "192.0.3.0" 26) ]) /\
  split_subnet (net4 "192.0.2.0" 24) [60%Z; 100%Z; 60%Z] = Ret (Some [
    (net4 "192.0.2.128" 26);
    (net4 "192.0.2.0" 25);
    (net4 "192.0.2.192" 26) ]) /\
  split_subnet (net4 "192.0.2.0" 24) [60%Z; 100%Z; 60%Z] = Ret (Some [
    (net4 "192.0.2.128" 26);
    (net4 "192.0.2.0" 25);
    (net4 "192.0.2.192" 26) ]) /\
  split_subnet (net4 "192.0.2.0" 24) [8589934592%Z] = Ret None.
Proof. tested. Qed.

(** cmds/split.rs:212-275 *)
Example test_split_resize_ipv6 :
  split_subnet (net6 "2001:db8::" 64) [10%Z] = Ret (Some [
    (net6 "2001:db8::" 124) ]) /\
  split_subnet (net6 "2001:db8::" 64) [60%Z; 60%Z; 60%Z; 60%Z] = Ret (Some [
    (net6 "2001:db8::" 122);
    (net6 "2001:db8::40" 122);
    (net6 "2001:db8::80" 122);
    (net6 "2001:db8::c0" 122) ]) /\
  split_subnet (net6 "2001:db8::" 121) [60%Z; 60%Z; 60%Z; 60%Z; 60%Z] = Ret (Some [
    (net6 "2001:db8::" 122);
    (net6 "2001:db8::40" 122);
    (net6 "2001:db8::80" 122);
    (net6 "2001:db8::c0" 122);
    (net6 "2001:db8::100" 122) ]) /\
  split_subnet (net6 "2001:db8::" 64) [60%Z; 100%Z; 60%Z] = Ret (Some [
    (net6 "2001:db8::80" 122);
    (net6 "2001:db8::" 121);
    (net6 "2001:db8::c0" 122) ]) /\
  split_subnet (net6 "2001:db8::" 121) [60%Z; 100%Z; 60%Z] = Ret (Some [
    (net6 "2001:db8::80" 122);
    (net6 "2001:db8::" 121);
    (net6 "2001:db8::c0" 122) ]) /\
  split_subnet (net6 "2001:db8::" 64) [(680564733841876926926749214863536422912)%Z] = Ret None.
Proof. tested. Qed.
