(** * P_Runs: runs of the program compared with each other (C67, C68) *)
From Verif Require Import RustBase Addr Net Parse Console ShowNet Main Spec SpecText SpecIO SpecShow SpecMain Demo Pf_Runs.

(** ** C67: build profile, sorting algorithm and hash order make no difference,
    but for a split into pieces with the same number of hosts *)
Theorem C67_same_run : forall (R R' : Rust) (T : Terminal) (args : list str) (z : Z),
  @usize_bits R = @usize_bits R' ->
  snd (@do_main R T args) = Ret z ->
  (forall prog w s ss cs, args = prog :: w :: s :: ss -> In w split_words -> counts_text ss cs -> NoDup cs) ->
  @do_main R' T args = @do_main R T args.
Proof. exact c67_same_run. Qed.
Print Assumptions C67_same_run.
Example C67_same_run_ex :
  @do_main reverse_env plain [lit "ripcalc"; lit "-m"; lit "10.0.0.0/25"; lit "10.0.0.128/25"; lit "9.0.0.0/8"] =
  @do_main debug_env plain [lit "ripcalc"; lit "-m"; lit "10.0.0.0/25"; lit "10.0.0.128/25"; lit "9.0.0.0/8"].
Proof. ex. Qed.

Theorem C67_same_status : forall (R R' : Rust) (T : Terminal) (args : list str) (z : Z),
  snd (@do_main R T args) = Ret z -> snd (@do_main R' T args) = Ret z.
Proof. exact c67_same_status. Qed.
Print Assumptions C67_same_status.
Example C67_same_status_ex :
  snd (@do_main debug_env plain [lit "ripcalc"; lit "-s"; lit "255.255.255.0/24"; lit "2"; lit "254"]) = Ret 1%Z /\
  snd (@do_main reverse_env plain [lit "ripcalc"; lit "-s"; lit "255.255.255.0/24"; lit "2"; lit "254"]) = Ret 1%Z.
Proof. ex. Qed.

(** The word size of the target shows in messages only. *)
Theorem C67_same_output : forall (R R' : Rust) (T : Terminal) (args : list str) (z : Z),
  snd (@do_main R T args) = Ret z ->
  (forall prog w s ss cs, args = prog :: w :: s :: ss -> In w split_words -> counts_text ss cs -> NoDup cs) ->
  Forall2 (fun e e' => e' = e \/ exists m m', e = EvErr m /\ e' = EvErr m') (fst (@do_main R T args)) (fst (@do_main R' T args)).
Proof. exact c67_same_output. Qed.
Print Assumptions C67_same_output.
Example C67_same_output_ex :
  let args := [lit "ripcalc"; lit "-e"; lit "10.0.0.4/31"; lit "10.0.0.1/4294967296"] in
  @do_main release_env plain args =
    ([EvOut (lit "10.0.0.4" ++ newline); EvOut (lit "10.0.0.5" ++ newline); EvErr (MsgNetwork (lit "10.0.0.1/4294967296") (CidrRange 4294967296 32))], Ret 1%Z) /\
  @do_main narrow_env plain args =
    ([EvOut (lit "10.0.0.4" ++ newline); EvOut (lit "10.0.0.5" ++ newline); EvErr (MsgNetwork (lit "10.0.0.1/4294967296") (CidrParseError IE_PosOverflow))], Ret 1%Z).
Proof. ex. Qed.

Theorem C67_word_refuted : exists (R R' : Rust) (args : list str),
  snd (@do_main R plain args) = Ret 1%Z /\ @do_main R' plain args <> @do_main R plain args /\
  (forall prog w s ss cs, args = prog :: w :: s :: ss -> In w split_words -> counts_text ss cs -> NoDup cs).
Proof. exact c67_word_refuted. Qed.
Print Assumptions C67_word_refuted.

Theorem C67_ties_refuted : exists (R R' : Rust) (args : list str),
  snd (@do_main R plain args) = Ret 0%Z /\ @do_main R' plain args <> @do_main R plain args.
Proof. exact c67_ties_refuted. Qed.
Print Assumptions C67_ties_refuted.

(** The report of a network is determined by its specification. *)
Theorem C67_described_once : forall (R : Rust) (F : family) (n : net F) (a : option (addr F)) (ms ms' : list mark),
  wf_net n -> described n a ms -> described n a ms' -> ms = ms'.
Proof. exact c67_described_once. Qed.
Print Assumptions C67_described_once.
Example C67_described_once_ex :
  let n := @new_with_mask (addr V4) ipv4_ops (ip4 10 0 3 0) (ip4 255 255 255 255) in
  firstn 4 (@report V4 debug_env n None None None 1 None) =
  [Frag White (lit "Network:   "); Frag Blue (lit "10.0.3.0/32          "); Frag Magenta (lit "0"); Frag Green (lit "0")].
Proof. ex. Qed.

(** ** C68: output as input *)
Theorem C68_minimize_again : forall (R : Rust) (F : family) (prog w : str) (ss ts : list str),
  In w minimize_words -> Forall (fun s => exists a n p, means F s a n /\ is_cidr n p) ss ->
  does (prog :: w :: ss) (map says ts) 0%Z -> Forall (of_family F) ts ->
  does (prog :: w :: ts) (map says ts) 0%Z.
Proof. exact c68_minimize_again. Qed.
Print Assumptions C68_minimize_again.
Example C68_minimize_again_ex :
  let out := [lit "10.1.2.0/24"; lit "11.0.0.0/8"] in
  @do_main debug_env plain [lit "ripcalc"; lit "-m"; lit "11.2.3.4/8"; lit "10.1.2.3/25"; lit "10.1.2.130/25"] = (map line out, Ret 0%Z) /\
  @do_main debug_env plain (lit "ripcalc" :: lit "-m" :: out) = (map line out, Ret 0%Z).
Proof. ex. Qed.

(** What minimize and derange print for IPv4 can always be read. *)
Theorem C68_readable_v4 : forall (R : Rust) (prog w : str) (ss ts : list str),
  (In w minimize_words /\ Forall (of_family V4) ss \/
   In w derange_words /\ Forall (fun s => exists a, address_text V4 s a) ss) ->
  does (prog :: w :: ss) (map says ts) 0%Z -> Forall (of_family V4) ts.
Proof. exact c68_readable_v4. Qed.
Print Assumptions C68_readable_v4.
Example C68_readable_v4_ex :
  @do_main debug_env plain [lit "ripcalc"; lit "-m"; lit "11.2.3.4/255.0.255.0"] = ([line (lit "11.0.3.0/255.0.255.0")], Ret 0%Z).
Proof. ex. Qed.

Theorem C68_derange_minimize : forall (R : Rust) (F : family) (prog w w' s t : str) (a b : addr F) (ts ts' : list str),
  In w derange_words -> In w' minimize_words -> address_text F s a -> address_text F t b ->
  does [prog; w; s; t] (map says ts) 0%Z -> Forall (of_family F) ts ->
  (forall x, In x ts <-> In x ts') ->
  does (prog :: w' :: ts') (map says ts) 0%Z.
Proof. exact c68_derange_minimize. Qed.
Print Assumptions C68_derange_minimize.
Example C68_derange_minimize_ex :
  let out := [lit "10.1.2.3/32"; lit "10.1.2.4/30"; lit "10.1.2.8/32"] in
  @do_main debug_env plain [lit "ripcalc"; lit "-d"; lit "10.1.2.3"; lit "10.1.2.8"] = (map line out, Ret 0%Z) /\
  @do_main debug_env plain (lit "ripcalc" :: lit "-m" :: rev out) = (map line out, Ret 0%Z).
Proof. ex. Qed.

Theorem C68_enumerate_minimize : forall (R : Rust) (F : family) (prog w w' s : str) (a : addr F) (n : net F) (p : N) (ts : list str),
  In w enumerate_words -> In w' minimize_words -> means F s a n -> is_cidr n p ->
  does [prog; w; s] (map says ts) 0%Z ->
  let hosts := map (fun t => t ++ match F with V4 => lit "/32" | V6 => lit "/128" end) ts in
  (F = V4 -> Forall (of_family F) hosts) /\
  (Forall (of_family F) hosts -> does (prog :: w' :: hosts) [says (net_display n)] 0%Z).
Proof. exact c68_enumerate_minimize. Qed.
Print Assumptions C68_enumerate_minimize.
Example C68_enumerate_minimize_ex :
  let out := [lit "fe80::4"; lit "fe80::5"; lit "fe80::6"; lit "fe80::7"] in
  @do_main debug_env plain [lit "ripcalc"; lit "-e"; lit "fe80::5/126"] = (map line out, Ret 0%Z) /\
  @do_main debug_env plain (lit "ripcalc" :: lit "-m" :: map (fun t => t ++ lit "/128") out) = ([line (lit "fe80::4/126")], Ret 0%Z).
Proof. ex. Qed.
