(** * P_Screen: stdout and stderr on one terminal (C94) *)
From Verif Require Import RustBase Console Main Messages Process SpecMessages SpecScreen Demo Pf_Screen.

(** ** C94: one file for both streams *)
(** What arrives is what was sent, in the order in which it was sent; the message of
    a panic comes last. *)
Theorem C94_in_turn : forall (U : Unicode) (R : Rust) (T : Terminal) (S : Stdio) (k : kind) (blame : str) (args : list str),
  Forall unicode args -> writable k = true -> obliging k ->
  exists ms t, fate usize_bits overflow_checks args ms (as_seen (closed (main_screen k blame args))) /\
    in_turn colors_enabled ms t /\
    on_screen (main_screen k blame args) = t ++ match closed (main_screen k blame args) with Panic => blame | _ => [] end.
Proof. exact c94_in_turn. Qed.
Print Assumptions C94_in_turn.
Example C94_in_turn_ex :
  let see args := @main_screen no_unicode debug_env plain std_stdio (sips 5) (lines [lit "panicked"]) (lit "ripcalc" :: args) in
  see [lit "-e"; lit "10.0.0.0/31"; lit "x"; lit "10.0.0.2/32"] =
    {| on_screen := lines [lit "10.0.0.0"; lit "10.0.0.1";
                           lit "failed to parse network ""x"": unrecognized network specification: ""x"""; lit "10.0.0.2"];
       closed := Ret 1%Z |} /\
  see [lit "-d"; lit "10.0.0.0"; lit "255.255.255.255"] = {| on_screen := lines [lit "panicked"]; closed := Panic |}.
Proof. ex. Qed.

(** Arguments that are not text. *)
Theorem C94_no_text : forall (U : Unicode) (R : Rust) (T : Terminal) (S : Stdio) (k : kind) (blame : str) (args : list str),
  ~ Forall unicode args -> writable k = true -> obliging k ->
  main_screen k blame args = {| on_screen := blame; closed := Panic |}.
Proof. exact c94_no_text. Qed.
Print Assumptions C94_no_text.
Example C94_no_text_ex :
  @main_screen no_unicode debug_env plain std_stdio (sips 1) (lit "bad") [[ascii_of_N 255]] = {| on_screen := lit "bad"; closed := Panic |}.
Proof. ex. Qed.

(** At all times every whole line that was sent is there, and every message. *)
Theorem C94_prompt : forall (U : Unicode) (R : Rust) (T : Terminal) (S : Stdio) (k : kind) (args : list str) (ms ms' : list mark) (r : res Z),
  Forall unicode args -> runs args (ms ++ ms') r -> writable k = true -> obliging k ->
  exists rest, in_turn colors_enabled ms (so_far k (map (paint colors_enabled) ms) ++ rest) /\ ~ In "010"%char rest /\
    (forall ms0 e, ms = ms0 ++ [Problem e] -> rest = []).
Proof. exact c94_prompt. Qed.
Print Assumptions C94_prompt.
Example C94_prompt_ex :
  let es := fst (@do_main debug_env colourful [lit "ripcalc"; lit "-r"; lit "10.0.0.0/31"; lit "32"]) in
  let now n := @so_far no_unicode std_stdio (sips 9) (firstn n es) in
  now 1%nat = lines [lit "Original network:"] /\ now 2%nat = now 1%nat /\
  @so_far no_unicode std_stdio (sips 9) [EvOut (lit "unfinished"); EvErr MsgMixing] = lines [lit "mixing IPv4 and IPv6 is not supported"].
Proof. ex. Qed.

(** Files that fail: what is there is the beginning of what should be there, with the
    message of a panic, or its beginning, in between. *)
Theorem C94_beginning : forall (U : Unicode) (R : Rust) (T : Terminal) (S : Stdio) (k : kind) (blame : str) (args : list str),
  Forall unicode args ->
  exists ms r t before rest after said unsaid,
    runs args ms r /\ in_turn colors_enabled ms t /\ t = before ++ rest ++ after /\ blame = said ++ unsaid /\
    on_screen (main_screen k blame args) = before ++ said ++ rest /\
    (closed (main_screen k blame args) = r \/ closed (main_screen k blame args) = Panic /\ exists i, fails_at k i) /\
    (said <> [] -> closed (main_screen k blame args) = Panic).
Proof. exact c94_beginning. Qed.
Print Assumptions C94_beginning.
Example C94_beginning_ex :
  let see k := @main_screen no_unicode debug_env plain std_stdio k (lit "panicked") [lit "ripcalc"; lit "-e"; lit "10.0.0.0/30"; lit "x"] in
  see (hiccup 1 20) = {| on_screen := lines [lit "10.0.0.0"] ++ lit "panicked"; closed := Panic |} /\
  see (with_room (Some 12%nat)) = {| on_screen := lines [lit "10.0.0.0"] ++ lit "10."; closed := Panic |} /\
  see unwritable = {| on_screen := []; closed := Ret 1%Z |}.
Proof. ex. Qed.

(** An exit status means that at most an unfinished last line is missing. *)
Theorem C94_status : forall (U : Unicode) (R : Rust) (T : Terminal) (S : Stdio) (k : kind) (blame : str) (args : list str) (z : Z),
  closed (main_screen k blame args) = Ret z -> writable k = true ->
  exists ms t lost, duty usize_bits args ms z /\ in_turn colors_enabled ms t /\
    t = on_screen (main_screen k blame args) ++ lost /\ ~ In "010"%char lost.
Proof. exact c94_status. Qed.
Print Assumptions C94_status.
Example C94_status_ex :
  let see k := @main_screen no_unicode debug_env colourful std_stdio k [] [lit "ripcalc"; lit "--color-test"] in
  closed (see (hiccup 1 7)) = Ret 0%Z /\ on_screen (see (hiccup 1 7)) = firstn 7 (on_screen (see (sips 100))).
Proof. ex. Qed.
