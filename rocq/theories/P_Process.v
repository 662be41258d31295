(** * P_Process: what the operating system sees of the program (C69 to C72) *)
From Verif Require Import RustBase Addr Net Parse Console ShowNet Main Messages Process Spec SpecText SpecIO SpecShow SpecMain SpecProcess Demo Pf_Process.

(** ** C69: the colour test *)
Theorem C69_colour_test : forall (R : Rust) (prog : str) (rest : list str),
  does (prog :: lit "--color-test" :: rest) (map (fun p => Frag (snd p) (fill 20 (fst p))) palette) 0%Z.
Proof. exact c69_colour_test. Qed.
Print Assumptions C69_colour_test.
Example C69_colour_test_ex :
  nth_error (fst (@do_main debug_env colourful [lit "ripcalc"; lit "--color-test"])) 7 =
    Some (EvStyled Gray (lit "Gray                ")).
Proof. ex. Qed.

(** All sixteen colours are there, once each, and look different. *)
Theorem C69_palette : forall c : color,
  (exists name, In (name, c) palette) /\
  (forall d, pen_of c = pen_of d -> c = d) /\
  count_occ pen_dec (map (fun p => pen_of (snd p)) palette) (pen_of c) = 1%nat.
Proof. exact c69_palette. Qed.
Print Assumptions C69_palette.
Example C69_palette_ex : List.length palette = 16%nat /\ pen_of Gray <> pen_of White.
Proof. split; [reflexivity|discriminate]. Qed.

(** ** C70: stdout *)
(** On a colour terminal everything sent out is seen in its colour, no escape
    sequence is left over or misread, and the pen is normal in the end. *)
Theorem C70_seen : forall (U : Unicode) (R : Rust) (args : list str) (ms : list mark) (r : res Z) (T : Terminal),
  (forall T' : Terminal, @do_main R T' args = (map (paint (@colors_enabled T')) ms, r)) ->
  Forall unicode args -> colors_enabled = true ->
  seen (on_stdout (main args)) = Some (flat_map drawn ms, Normal) /\ ended (main args) = r.
Proof. exact c70_seen. Qed.
Print Assumptions C70_seen.
Example C70_seen_ex :
  match seen (on_stdout (@main no_unicode debug_env colourful [lit "ripcalc"; lit "10.1.2.3/24"])) with
  | Some (l, Normal) =>
      nth_error l 0 = Some ("A"%char, Ink true 7) /\ nth_error l 11 = Some ("1"%char, Ink true 4) /\
      nth_error l 32 = Some ("0"%char, Ink true 2) /\ nth_error l 60 = Some ("0"%char, Ink true 3) /\
      nth_error l 67 = Some ("010"%char, Normal)
  | _ => False
  end.
Proof. ex. Qed.

(** What is seen is ASCII text in lines. *)
Theorem C70_ascii : forall (U : Unicode) (R : Rust) (T : Terminal) (args : list str),
  exists l, seen (on_stdout (main args)) = Some (l, Normal) /\
    Forall (fun x => printable_ascii (fst x) \/ fst x = "010"%char) l /\
    (colors_enabled = false -> on_stdout (main args) = map fst l /\ Forall (fun x => snd x = Normal) l).
Proof. exact c70_ascii. Qed.
Print Assumptions C70_ascii.
Example C70_ascii_ex :
  on_stdout (@main no_unicode debug_env plain [lit "ripcalc"; lit "-m"; lit "10.1.2.3/24"; lit "::/8"]) = [] /\
  on_stdout (@main no_unicode debug_env plain [lit "ripcalc"; lit "-m"; lit "10.1.2.0/25"; lit "10.1.2.128/25"]) =
    lines [lit "10.1.2.0/24"].
Proof. ex. Qed.

(** ** C71: stderr *)
(** Messages are lines of text without control characters, whatever the arguments. *)
Theorem C71_tidy : forall (U : Unicode) (R : Rust) (T : Terminal) (args : list str),
  exists ls, on_stderr (main args) = lines ls /\ Forall tidy ls.
Proof. exact c71_tidy. Qed.
Print Assumptions C71_tidy.
Example C71_tidy_ex :
  on_stderr (@main no_unicode debug_env plain [lit "ripcalc"; lit "1.2.3.4/8" ++ newline ++ [escape] ++ lit "[2J"]) =
    lines [lit "unrecognized network specification: ""1.2.3.4/8\n\u{1b}[2J"""].
Proof. ex. Qed.

(** A text shown in a message can be read back: it is a string literal of Rust. *)
Theorem C71_literal : forall (U : Unicode) (s rest : str),
  unicode s -> literal (debug_str s ++ rest) = Some (s, rest).
Proof. exact c71_literal. Qed.
Print Assumptions C71_literal.
Example C71_literal_ex :
  @debug_str all_unicode (lit "a""\b" ++ newline ++ utf8 0xe9 ++ utf8 0x85 ++ utf8 0x1f600) =
    lit """a\""\\b\n" ++ utf8 0xe9 ++ lit "\u{85}" ++ utf8 0x1f600 ++ lit """" /\
  @debug_str no_unicode (utf8 0xe9 ++ utf8 0x20ac) = lit """\u{e9}\u{20ac}""".
Proof. ex. Qed.

(** Text without special characters is shown as it is. *)
Theorem C71_plain : forall (U : Unicode) (s : str),
  Forall (fun c => printable_ascii c /\ c <> """"%char /\ c <> "\"%char) s ->
  debug_str s = lit """" ++ s ++ lit """".
Proof. exact c71_plain. Qed.
Print Assumptions C71_plain.
Example C71_plain_ex : @debug_str no_unicode (lit "it's") = lit """it's""".
Proof. ex. Qed.

(** The messages about one argument name it. *)
Theorem C71_names : forall (U : Unicode) (s : str) (m : errmsg),
  unicode s ->
  (exists e, m = MsgHostCount s e) \/ (exists e, m = MsgSplitNetspec s e) \/ (exists e, m = MsgNetspec s e) \/
  (exists e, m = MsgSubnet s e) \/ (exists e, m = MsgNetwork s e) \/
  m = MsgError (Unrecognized s) \/ m = MsgParsing (Unrecognized s) ->
  exists before text after, message_text m = before ++ text ++ after /\ ~ In """"%char before /\
    literal (text ++ after) = Some (s, after).
Proof. exact c71_names. Qed.
Print Assumptions C71_names.
Example C71_names_ex :
  @message_text no_unicode (MsgHostCount (lit "5x") IE_InvalidDigit) =
    lines [lit "failed to parse host count ""5x"": invalid digit found in string"] /\
  @message_text no_unicode (MsgNetwork (lit "1.2.3.256/8") (AddressError (ChunkOutOfRange 3 256 0 255))) =
    lines [lit "failed to parse network ""1.2.3.256/8"": failed to parse address: ChunkOutOfRange(3, 256, 0, 255)"] /\
  @message_text no_unicode (MsgFirstAddr (ChunkParseError 0 (lit "x") IE_InvalidDigit)) =
    lines [lit "failed to parse first address: failed to parse IP address chunk with index 0 (""x""): invalid digit found in string"].
Proof. ex. Qed.

(** ** C72: the process *)
Theorem C72_utf8 : forall (s : str), is_utf8 s = true <-> unicode s.
Proof. exact c72_utf8. Qed.
Print Assumptions C72_utf8.
Example C72_utf8_ex :
  is_utf8 (utf8 0x41 ++ utf8 0xe9 ++ utf8 0x20ac ++ utf8 0x1f600) = true /\
  is_utf8 (utf8 0xd800) = false /\ is_utf8 [ascii_of_N 0xc0; ascii_of_N 0x80] = false.
Proof. ex. Qed.

Theorem C72_ends_iff : forall (U : Unicode) (R : Rust) (T : Terminal) (args : list str),
  (exists z, ended (main args) = Ret z) <-> Forall unicode args /\ ~ derange_to_top args /\ ~ split_to_top args.
Proof. exact c72_ends_iff. Qed.
Print Assumptions C72_ends_iff.
Example C72_ends_iff_ex :
  ended (@main no_unicode debug_env plain [lit "ripcalc"; lit "--help"; [ascii_of_N 0xff]]) = Panic /\
  ended (@main no_unicode debug_env plain [lit "ripcalc"; lit "--help"; utf8 0xff]) = Ret 0%Z.
Proof. ex. Qed.

(** Status 1 comes with a message, save for a split that does not fit; status 0
    comes without, save for --help. *)
Theorem C72_status : forall (U : Unicode) (R : Rust) (T : Terminal) (args : list str) (z : Z),
  ended (main args) = Ret z ->
  (z = 0 \/ z = 1)%Z /\
  (z = 1%Z -> on_stderr (main args) <> [] \/ exists prog w rest, args = prog :: w :: rest /\ In w split_words) /\
  (z = 0%Z -> on_stderr (main args) = [] \/
     exists prog rest, args = prog :: lit "--help" :: rest /\ on_stderr (main args) = lines usage_text).
Proof. exact c72_status. Qed.
Print Assumptions C72_status.
Example C72_status_ex :
  let p := @main no_unicode debug_env plain [lit "ripcalc"; lit "-s"; lit "10.0.0.0/24"; lit "99999999999"] in
  ended p = Ret 1%Z /\ on_stderr p = [].
Proof. ex. Qed.
