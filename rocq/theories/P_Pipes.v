(** * P_Pipes: the output of one process as the arguments of another (C74) *)
From Verif Require Import RustBase Addr Net Parse Console Main Messages Process Spec SpecText SpecShow SpecMain SpecProcess Demo Pf_Pipes.

(** ** C74: pipelines *)
(** Two builds of the program for the same word size write the same bytes and end the
    same way, if the first ends with a status and no split is asked for the same number
    of hosts twice. *)
Theorem C74_same_process : forall (U : Unicode) (R R' : Rust) (T : Terminal) (args : list str) (z : Z),
  @usize_bits R = @usize_bits R' ->
  ended (@main U R T args) = Ret z ->
  (forall prog w s ss cs, args = prog :: w :: s :: ss -> In w split_words -> counts_text ss cs -> NoDup cs) ->
  @main U R' T args = @main U R T args.
Proof. exact c74_same_process. Qed.
Print Assumptions C74_same_process.
Example C74_same_process_ex :
  @main no_unicode release_env colourful [lit "ripcalc"; lit "-s"; lit "10.0.0.0/28"; lit "5"; lit "2"] =
  @main no_unicode reverse_env colourful [lit "ripcalc"; lit "-s"; lit "10.0.0.0/28"; lit "5"; lit "2"].
Proof. ex. Qed.

(** Builds for different word sizes still write the same bytes to standard output. *)
Theorem C74_same_stdout : forall (U : Unicode) (R R' : Rust) (T : Terminal) (args : list str) (z : Z),
  ended (@main U R T args) = Ret z ->
  (forall prog w s ss cs, args = prog :: w :: s :: ss -> In w split_words -> counts_text ss cs -> NoDup cs) ->
  on_stdout (@main U R' T args) = on_stdout (@main U R T args) /\ ended (@main U R' T args) = Ret z.
Proof. exact c74_same_stdout. Qed.
Print Assumptions C74_same_stdout.
Example C74_same_stdout_ex :
  let args := [lit "ripcalc"; lit "-e"; lit "10.0.0.4/32"; lit "10.0.0.1/4294967296"] in
  @main no_unicode release_env plain args =
    {| on_stdout := lines [lit "10.0.0.4"];
       on_stderr := lines [lit "failed to parse network ""10.0.0.1/4294967296"": CIDR prefix 4294967296 is greater than the maximum (32)"];
       ended := Ret 1%Z |} /\
  @main no_unicode narrow_env plain args =
    {| on_stdout := lines [lit "10.0.0.4"];
       on_stderr := lines [lit "failed to parse network ""10.0.0.1/4294967296"": failed to parse CIDR prefix: ParseIntError { kind: PosOverflow }"];
       ended := Ret 1%Z |}.
Proof. ex. Qed.

(** [ripcalc -m NETWORKS | xargs ripcalc -m] writes what the first process writes;
    the two processes may run different builds. *)
Theorem C74_minimize : forall (U U' : Unicode) (R R' : Rust) (T T' : Terminal) (F : family) (prog w w' : str) (ss : list str),
  unicode prog -> In w minimize_words -> In w' minimize_words -> ss <> [] ->
  Forall (fun s => exists a n p, means F s a n /\ is_cidr n p) ss ->
  let first := @main U R T (prog :: w :: ss) in
  let out := text_lines (on_stdout first) in
  ended first = Ret 0%Z /\ on_stderr first = [] /\ on_stdout first = lines out /\
  (F = V4 \/ Forall (of_family F) out -> @main U' R' T' (prog :: w' :: out) = first).
Proof. exact c74_minimize. Qed.
Print Assumptions C74_minimize.
Example C74_minimize_ex :
  let first := @main no_unicode debug_env colourful [lit "ripcalc"; lit "-m"; lit "11.2.3.4/8"; lit "10.1.2.3/25"; lit "10.1.2.130/25"] in
  text_lines (on_stdout first) = [lit "10.1.2.0/24"; lit "11.0.0.0/8"] /\
  @main all_unicode reverse_env plain (lit "ripcalc" :: lit "--minimize" :: text_lines (on_stdout first)) = first.
Proof. ex. Qed.

(** [ripcalc -d ONE OTHER | sort | xargs ripcalc -m], in whatever order, writes what
    the first process writes. *)
Theorem C74_derange : forall (U U' : Unicode) (R R' : Rust) (T T' : Terminal) (F : family) (prog w w' s t : str) (a b : addr F) (out' : list str),
  unicode prog -> In w derange_words -> In w' minimize_words -> address_text F s a -> address_text F t b ->
  N.max (value a) (value b) <> top F ->
  let first := @main U R T [prog; w; s; t] in
  let out := text_lines (on_stdout first) in
  ended first = Ret 0%Z /\ on_stderr first = [] /\ on_stdout first = lines out /\
  (F = V4 \/ Forall (of_family F) out -> (forall x, In x out <-> In x out') ->
   @main U' R' T' (prog :: w' :: out') = first).
Proof. exact c74_derange. Qed.
Print Assumptions C74_derange.
Example C74_derange_ex :
  let first := @main no_unicode debug_env plain [lit "ripcalc"; lit "-d"; lit "10.1.2.3"; lit "10.1.2.8"] in
  text_lines (on_stdout first) = [lit "10.1.2.3/32"; lit "10.1.2.4/30"; lit "10.1.2.8/32"] /\
  @main all_unicode release_env plain (lit "ripcalc" :: lit "-m" :: rev (text_lines (on_stdout first))) = first.
Proof. ex. Qed.

(** [ripcalc -e NETWORK], each line with a slash and the number of bits of an address
    added, then [ripcalc -m], writes just the network. *)
Theorem C74_enumerate : forall (U U' : Unicode) (R R' : Rust) (T T' : Terminal) (F : family) (prog w w' s : str) (a : addr F) (n : net F) (p : N),
  unicode prog -> In w enumerate_words -> In w' minimize_words -> means F s a n -> is_cidr n p ->
  let first := @main U R T [prog; w; s] in
  let hosts := map (fun t => t ++ match F with V4 => lit "/32" | V6 => lit "/128" end) (text_lines (on_stdout first)) in
  ended first = Ret 0%Z /\ on_stderr first = [] /\ N.of_nat (List.length hosts) = 2 ^ (width F - p) /\
  (F = V4 \/ Forall (of_family F) hosts ->
   @main U' R' T' (prog :: w' :: hosts) = {| on_stdout := lines [net_display n]; on_stderr := []; ended := Ret 0%Z |}).
Proof. exact c74_enumerate. Qed.
Print Assumptions C74_enumerate.
Example C74_enumerate_ex :
  let first := @main no_unicode debug_env plain [lit "ripcalc"; lit "-e"; lit "fe80::5/126"] in
  text_lines (on_stdout first) = [lit "fe80::4"; lit "fe80::5"; lit "fe80::6"; lit "fe80::7"] /\
  on_stdout (@main no_unicode debug_env plain (lit "ripcalc" :: lit "-m" :: map (fun t => t ++ lit "/128") (text_lines (on_stdout first)))) =
    lines [lit "fe80::4/126"].
Proof. ex. Qed.
