(** * C87: texts are refused for the right reason *)
From Verif Require Import RustBase Addr Parse Console Messages Main Spec SpecText SpecIO SpecShow SpecMain SpecRefuse Demo Pf_Refuse.

Theorem C87_number : forall (radix max : N) (s : str) (why : int_error), radix = 10 \/ radix = 16 ->
  parse_uint radix max s = RErr why <-> why_not radix max s why.
Proof. exact c87_number. Qed.
Print Assumptions C87_number.
Example C87_number_ex :
  parse_uint 10 255 (lit "256x") = RErr IE_PosOverflow /\ parse_uint 10 255 (lit "25x6") = RErr IE_InvalidDigit /\
  parse_uint 10 255 (lit "+") = RErr IE_InvalidDigit /\ parse_uint 10 255 [] = RErr IE_Empty.
Proof. ex. Qed.

Theorem C87_v4 : forall (s : str) (e : addr_error), v4_from_str s = RErr e <-> refused V4 s e.
Proof. exact c87_v4. Qed.
Print Assumptions C87_v4.
Example C87_v4_ex :
  v4_from_str (lit "1.2.300.x") = RErr (ChunkOutOfRange 2 300 0 255) /\
  v4_from_str (lit "1.2..x") = RErr (EmptyChunk 2) /\
  v4_from_str (lit "1.99999999999x.3.4") = RErr (ChunkParseError 1 (lit "99999999999x") IE_PosOverflow).
Proof. ex. Qed.

Theorem C87_v6 : forall (s : str) (e : addr_error), v6_from_str s = Ret (RErr e) <-> refused V6 s e.
Proof. exact c87_v6. Qed.
Print Assumptions C87_v6.
Example C87_v6_ex :
  v6_from_str (lit "1:::2") = Ret (RErr (TooManyShorteningElements 2 1)) /\
  v6_from_str (lit "1::g:12345") = Ret (RErr (ChunkParseError 6 (lit "g") IE_InvalidDigit)) /\
  v6_from_str (lit ":1:2:3:4:5:6:7:8") = Ret (RErr (IncorrectChunkCount 9 8)) /\
  v6_from_str (lit "1::12345") = Ret (RErr (ChunkParseError 7 (lit "12345") IE_PosOverflow)).
Proof. ex. Qed.

(** Every text is either read or refused, for one reason. *)
Theorem C87_decided : forall (F : family) (s : str),
  (exists! a, reads F s a) /\ (forall e, ~ refused F s e) \/
  (forall a, ~ reads F s a) /\ (exists! e, refused F s e).
Proof. exact c87_decided. Qed.
Print Assumptions C87_decided.
Example C87_decided_ex :
  v4_from_str (lit "1.2.3.+4") = ROk (ip4 1 2 3 4) /\ v4_from_str (lit "1.2.3.-4") = RErr (ChunkParseError 3 (lit "-4") IE_InvalidDigit).
Proof. ex. Qed.

Theorem C87_address : forall (s : str) (e : addr_error), parse_addr s = Ret (RErr e) <-> address_refused s e.
Proof. exact c87_address. Qed.
Print Assumptions C87_address.
Example C87_address_ex :
  parse_addr (lit "10.0.0") = Ret (RErr (IncorrectChunkCount 3 4)) /\
  parse_addr (lit "10:0:0") = Ret (RErr (IncorrectChunkCount 3 8)) /\
  parse_addr (lit "::10.0") = Ret (RErr UnknownAddressType).
Proof. ex. Qed.

Theorem C87_subnet : forall (R : Rust) (s : str) (e : netspec_error), parse_subnet s = Ret (RErr e) <-> subnet_refused usize_bits s e.
Proof. exact c87_subnet. Qed.
Print Assumptions C87_subnet.
Example C87_subnet_ex :
  parse_subnet (H := debug_env) (lit "255.0.0.x") = Ret (RErr (MaskError (ChunkParseError 3 (lit "x") IE_InvalidDigit))) /\
  parse_subnet (H := debug_env) (lit "::255.0") = Ret (RErr (MaskError (ChunkParseError 7 (lit "255.0") IE_InvalidDigit))) /\
  parse_subnet (H := debug_env) [] = Ret (RErr (CidrParseError IE_Empty)).
Proof. ex. Qed.

Theorem C87_netspec : forall (R : Rust) (s : str) (e : netspec_error),
  parse_netspec s = Ret (RErr e) <-> netspec_refused usize_bits s e.
Proof. exact c87_netspec. Qed.
Print Assumptions C87_netspec.
Example C87_netspec_ex :
  parse_netspec (H := debug_env) (lit "10.0.300.999/99") = Ret (RErr (AddressError (ChunkOutOfRange 2 300 0 255))) /\
  parse_netspec (H := debug_env) (lit "10.0.0.1/-255.4294967296.0.0") =
    Ret (RErr (MaskError (ChunkParseError 1 (lit "4294967296") IE_PosOverflow))) /\
  parse_netspec (H := debug_env) (lit "10.0.0.1/-255") = Ret (RErr (CidrRange 255 32)).
Proof. ex. Qed.

(** What has no meaning is refused, for one reason. *)
Theorem C87_nonsense : forall (R : Rust) (s : str),
  (nonsense s <-> exists! e, netspec_refused usize_bits s e) /\ (nonsense s <-> exists e, netspec_refused usize_bits s e) /\
  (no_address s <-> exists! e, address_refused s e) /\ (no_address s <-> exists e, address_refused s e).
Proof. exact c87_nonsense. Qed.
Print Assumptions C87_nonsense.
Example C87_nonsense_ex :
  parse_netspec (H := debug_env) (lit "10.0.0.1/") = Ret (RErr (Unrecognized (lit "10.0.0.1/"))) /\
  parse_addr (lit "1:2") = Ret (RErr (IncorrectChunkCount 2 8)).
Proof. ex. Qed.

(** The runs complain about the first text that is refused, and say why. *)
Theorem C87_show : forall (R : Rust) (prog : str) (pre post : list str) (s : str) (e : netspec_error),
  (forall w, hd_error (pre ++ s :: post) = Some w -> ~ In w command_words) ->
  (forall t, In t pre -> ~ nonsense t) -> netspec_refused usize_bits s e ->
  does (prog :: pre ++ s :: post) [Problem (MsgError e)] 1%Z.
Proof. exact c87_show. Qed.
Print Assumptions C87_show.
Example C87_show_ex :
  @do_main debug_env plain [lit "ripcalc"; lit "10.1.2.3/32"; lit "1::2::3/8"; lit "x"] =
    ([EvErr (MsgError (AddressError (TooManyShorteningElements 2 1)))], Ret 1%Z).
Proof. ex. Qed.

Theorem C87_minimize : forall (R : Rust) (F : family) (prog w : str) (pre post : list str) (s : str) (e : netspec_error),
  In w minimize_words -> Forall (of_family F) pre -> netspec_refused usize_bits s e ->
  does (prog :: w :: pre ++ s :: post) [Problem (MsgParsing e)] 1%Z.
Proof. exact c87_minimize. Qed.
Print Assumptions C87_minimize.
Example C87_minimize_ex :
  @do_main debug_env plain [lit "ripcalc"; lit "-m"; lit "10.1.2.3/25"; lit "::12345/0"; lit "x"] =
    ([EvErr (MsgParsing (AddressError (ChunkParseError 7 (lit "12345") IE_PosOverflow)))], Ret 1%Z).
Proof. ex. Qed.

Theorem C87_enumerate : forall (R : Rust) (prog w : str) (ss : list str) (es : list netspec_error),
  In w enumerate_words -> ss <> [] -> Forall2 (netspec_refused usize_bits) ss es ->
  does (prog :: w :: ss) (map (fun se => Problem (MsgNetwork (fst se) (snd se))) (combine ss es)) 1%Z.
Proof. exact c87_enumerate. Qed.
Print Assumptions C87_enumerate.
Example C87_enumerate_ex :
  @do_main debug_env plain [lit "ripcalc"; lit "-e"; lit "1.2.3/4"; lit "a/1"] =
    ([EvErr (MsgNetwork (lit "1.2.3/4") (Unrecognized (lit "1.2.3/4")));
      EvErr (MsgNetwork (lit "a/1") (AddressError (IncorrectChunkCount 1 8)))], Ret 1%Z).
Proof. ex. Qed.

Theorem C87_derange : forall (R : Rust) (F : family) (prog w s t : str) (a : addr F) (e : addr_error),
  In w derange_words ->
  (address_refused s e -> does [prog; w; s; t] [Problem (MsgFirstAddr e)] 1%Z) /\
  (address_text F s a -> address_refused t e -> does [prog; w; s; t] [Problem (MsgSecondAddr e)] 1%Z).
Proof. exact c87_derange. Qed.
Print Assumptions C87_derange.
Example C87_derange_ex :
  @do_main debug_env plain [lit "ripcalc"; lit "-d"; lit "10.1.2.6"; lit "10.1.2.256"] =
    ([EvErr (MsgSecondAddr (ChunkOutOfRange 3 256 0 255))], Ret 1%Z).
Proof. ex. Qed.

Theorem C87_resize : forall (R : Rust) (F : family) (prog w s t : str) (a : addr F) (n : net F) (e : netspec_error),
  In w resize_words ->
  (netspec_refused usize_bits s e -> does [prog; w; s; t] [Problem (MsgNetspec s e)] 1%Z) /\
  (means F s a n -> subnet_refused usize_bits t e -> does [prog; w; s; t] [Problem (MsgSubnet t e)] 1%Z).
Proof. exact c87_resize. Qed.
Print Assumptions C87_resize.
Example C87_resize_ex :
  @do_main debug_env plain [lit "ripcalc"; lit "-r"; lit "10.1.2.3/24"; lit "255..0.0"] =
    ([EvErr (MsgSubnet (lit "255..0.0") (MaskError (EmptyChunk 1)))], Ret 1%Z).
Proof. ex. Qed.

Theorem C87_split : forall (R : Rust) (prog w s : str) (ss : list str) (cs : list Z) (e : netspec_error),
  In w split_words -> counts_text ss cs -> netspec_refused usize_bits s e ->
  does (prog :: w :: s :: ss) [Problem (MsgSplitNetspec s e)] 1%Z.
Proof. exact c87_split. Qed.
Print Assumptions C87_split.
Example C87_split_ex :
  @do_main debug_env plain [lit "ripcalc"; lit "-s"; lit "10.1.2.3/1.2.3.999"; lit "5"] =
    ([EvErr (MsgSplitNetspec (lit "10.1.2.3/1.2.3.999") (MaskError (ChunkOutOfRange 3 999 0 255)))], Ret 1%Z).
Proof. ex. Qed.
