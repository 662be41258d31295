(** * P_Amount: how much is written (C98) *)
From Verif Require Import RustBase Addr Net Parse Console ShowNet Main Messages Process SpecMessages SpecAmount Demo Pf_Amount.

(** ** C98: how much is written *)
(** Describing networks: as many lines as their sizes and classes say, and one between
    any two. *)
Theorem C98_show : forall (U : Unicode) (R : Rust) (T : Terminal) (prog : str) (ss : list str) (hs : list N),
  Forall unicode (prog :: ss) -> no_command ss -> Forall2 (takes_up colors_enabled) ss hs ->
  line_ends (on_stdout (main (prog :: ss))) + 1 = add_up hs + N.of_nat (List.length ss).
Proof. exact c98_show. Qed.
Print Assumptions C98_show.
Example C98_show_ex :
  let lines T (args : list string) := line_ends (on_stdout (@main no_unicode debug_env T (map lit args))) in
  map (lines colourful) [["ripcalc"; "10.0.0.0/8"]; ["ripcalc"; "10.0.0.0/31"; "::1/64"]]%string = [9; 17] /\
  map (lines plain) [["ripcalc"; "10.0.0.0/8"]; ["ripcalc"; "0.0.0.0/0"]; ["ripcalc"; "10.0.0.0/31"; "::1/64"]]%string = [132; 131; 523].
Proof. ex. Qed.

(** Listing addresses: a line on stdout for each, a line on stderr for each argument
    that is no network. *)
Theorem C98_enumerate : forall (U : Unicode) (R : Rust) (T : Terminal) (prog w : str) (ss : list str) (ks es : list N),
  Forall unicode (prog :: w :: ss) -> In w enumerate_words -> ss <> [] ->
  Forall2 (fun s ke => yields s (fst ke) (snd ke)) ss (combine ks es) -> List.length ks = List.length es ->
  line_ends (on_stdout (main (prog :: w :: ss))) = add_up ks /\
  line_ends (on_stderr (main (prog :: w :: ss))) = add_up es.
Proof. exact c98_enumerate. Qed.
Print Assumptions C98_enumerate.
Example C98_enumerate_ex :
  let m := @main no_unicode debug_env colourful (map lit ["ripcalc"; "-e"; "10.0.0.0/28"; "x"; "::/125"; ""; "1.2.3.4/255.0.255.254"]%string) in
  line_ends (on_stdout m) = 16 + 8 + 512 /\ line_ends (on_stderr m) = 2.
Proof. ex. Qed.

(** Minimizing: at least one line, and no more than there were networks. *)
Theorem C98_minimize : forall (U : Unicode) (R : Rust) (T : Terminal) (F : family) (prog w : str) (ss : list str),
  Forall unicode (prog :: w :: ss) -> In w minimize_words -> ss <> [] -> Forall (of_family F) ss ->
  1 <= line_ends (on_stdout (main (prog :: w :: ss))) <= N.of_nat (List.length ss).
Proof. exact c98_minimize. Qed.
Print Assumptions C98_minimize.
Example C98_minimize_ex :
  let lines (args : list string) := line_ends (on_stdout (@main no_unicode debug_env plain (map lit args))) in
  map lines [["ripcalc"; "-m"; "10.0.0.0/24"; "10.0.1.0/24"; "10.0.1.7/32"]; ["ripcalc"; "-m"; "10.0.0.0/24"; "10.0.2.0/24"]]%string = [1; 2].
Proof. ex. Qed.

(** Ranges: no more lines than there are addresses, and at most 62 and 254. *)
Theorem C98_derange : forall (U : Unicode) (R : Rust) (T : Terminal) (F : family) (prog w s t : str) (a b : addr F),
  Forall unicode [prog; w; s; t] -> In w derange_words -> address_text F s a -> address_text F t b ->
  let k := line_ends (on_stdout (main [prog; w; s; t])) in
  let size := N.max (value a) (value b) - N.min (value a) (value b) + 1 in
  k <= size /\ k <= 2 * (width F - 1) /\ (N.max (value a) (value b) <> top F <-> 1 <= k).
Proof. exact c98_derange. Qed.
Print Assumptions C98_derange.
Example C98_derange_ex :
  let lines (args : list string) := line_ends (on_stdout (@main no_unicode debug_env plain (map lit args))) in
  map lines [["ripcalc"; "-d"; "0.0.0.1"; "255.255.255.254"]; ["ripcalc"; "-d"; "1.2.3.4"; "1.2.3.4"];
             ["ripcalc"; "-d"; "::1"; "::fffe"]; ["ripcalc"; "-d"; "1.2.3.4"; "255.255.255.255"]]%string = [62; 1; 30; 0].
Proof. ex. Qed.

(** Resizing: what it takes to describe the network and those it becomes. *)
Theorem C98_resize : forall (U : Unicode) (R : Rust) (T : Terminal) (F : family) (prog w s t : str) (a m : addr F) (n : net F),
  Forall unicode [prog; w; s; t] -> In w resize_words -> means F s a n -> mask_text F t m -> colors_enabled = true ->
  let h := host_bits (subnet_mask n) in
  line_ends (on_stdout (main [prog; w; s; t])) =
    2 + height true F false (2 ^ h) false + 2 ^ (h - host_bits m) * (2 + height true F false (2 ^ host_bits m) false).
Proof. exact c98_resize. Qed.
Print Assumptions C98_resize.
Example C98_resize_ex :
  let lines (args : list string) := line_ends (on_stdout (@main no_unicode debug_env colourful (map lit args))) in
  map lines [["ripcalc"; "-r"; "10.0.0.0/24"; "26"]; ["ripcalc"; "-r"; "10.0.0.0/24"; "255.255.0.0"]; ["ripcalc"; "-r"; "::/124"; "127"]]%string = [35; 14; 47].
Proof. ex. Qed.

(** Splitting: what it takes to describe the network and the parts, and up to 62 or 254
    lines for the rest. *)
Theorem C98_split : forall (U : Unicode) (R : Rust) (T : Terminal) (F : family) (prog w s : str) (ss : list str) (a : addr F) (n : net F) (cs : list Z),
  Forall unicode (prog :: w :: s :: ss) -> In w split_words -> means F s a n -> counts_text ss cs -> colors_enabled = true ->
  let base := 2 + height true F false (2 ^ host_bits (subnet_mask n)) false in
  let parts := add_up (map (fun c => 2 + height true F false (2 ^ piece c) false) cs) in
  exists u, line_ends (on_stdout (main (prog :: w :: s :: ss))) =
    base + (if run_start n cs + total cs <=? top F then parts else 0) + 1 + u /\
    u <= 2 * (width F - 1) /\
    (0 < u <-> split_inside n cs /\ forall h, highest n h -> N.max (run_start n cs + total cs) (value h) <> top F).
Proof. exact c98_split. Qed.
Print Assumptions C98_split.
Example C98_split_ex :
  let lines (args : list string) := line_ends (on_stdout (@main no_unicode debug_env colourful (map lit args))) in
  map lines [["ripcalc"; "-s"; "10.0.0.0/24"; "20"; "100"]; ["ripcalc"; "-s"; "10.0.0.0/24"; "20"; "250"]; ["ripcalc"; "-s"; "255.255.255.0/24"; "5"];
             ["ripcalc"; "-s"; "255.255.255.0/24"; "5"; "5000"]]%string = [24; 22; 15; 8].
Proof. ex. Qed.

(** Messages: none, one line, the usage text, or at most a line for each network to be
    enumerated. *)
Theorem C98_messages : forall (U : Unicode) (R : Rust) (T : Terminal) (args : list str),
  In (line_ends (on_stderr (main args))) [0; 1; 12] \/
  exists prog w ss, args = prog :: w :: ss /\ In w enumerate_words /\
    line_ends (on_stderr (main args)) <= N.of_nat (List.length ss).
Proof. exact c98_messages. Qed.
Print Assumptions C98_messages.
Example C98_messages_ex :
  let lines (args : list string) := line_ends (on_stderr (@main no_unicode debug_env plain (map lit args))) in
  map lines [["ripcalc"; "--help"]; ["ripcalc"; "x"; "y"]; ["ripcalc"; "-e"; "x"; "y"; "z"]; ["ripcalc"; "1.2.3.4/5"]; ["ripcalc"; "-s"; "1.2.3.4/5"]]%string = [12; 1; 3; 0; 12].
Proof. ex. Qed.

(** A run that exits has written something. *)
Theorem C98_something : forall (U : Unicode) (R : Rust) (T : Terminal) (args : list str) (z : Z),
  ended (main args) = Ret z -> on_stdout (main args) <> [] \/ on_stderr (main args) <> [].
Proof. exact c98_something. Qed.
Print Assumptions C98_something.
Example C98_something_ex :
  on_stdout (@main no_unicode debug_env plain [lit "ripcalc"; lit "-d"; lit "0.0.0.0"; lit "255.255.255.255"]) = [] /\
  on_stdout (@main no_unicode debug_env plain [lit "ripcalc"; lit "-d"; lit "0.0.0.0"; lit "0.0.255.254"]) <> [].
Proof. split; [ex|vm_compute; discriminate]. Qed.
