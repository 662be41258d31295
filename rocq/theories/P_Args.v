(** * P_Args: runs on several arguments, and runs on the output of others (C86) *)
From Verif Require Import RustBase Addr Net Parse Console Main Messages Process Spec SpecText SpecShow SpecMain SpecProcess Demo Pf_Args.

(** ** C86: one run for many arguments *)
(** Listing the addresses of several networks: the outputs one after the other, and
    the worst of the statuses. *)
Theorem C86_enumerate : forall (U : Unicode) (R : Rust) (T : Terminal) (prog w : str) (ss ss' : list str),
  In w enumerate_words -> ss <> [] -> ss' <> [] -> Forall unicode (prog :: ss ++ ss') ->
  let one := main (prog :: w :: ss) in
  let two := main (prog :: w :: ss') in
  let both := main (prog :: w :: ss ++ ss') in
  on_stdout both = on_stdout one ++ on_stdout two /\ on_stderr both = on_stderr one ++ on_stderr two /\
  (ended both = Ret 0%Z /\ ended one = Ret 0%Z /\ ended two = Ret 0%Z \/
   ended both = Ret 1%Z /\ (ended one = Ret 1%Z \/ ended two = Ret 1%Z)).
Proof. exact c86_enumerate. Qed.
Print Assumptions C86_enumerate.
Example C86_enumerate_ex :
  let run ss := @main no_unicode debug_env plain (lit "ripcalc" :: lit "-e" :: ss) in
  let one := run [lit "10.0.0.6/31"; lit "10.0.0.7"] in
  let two := run [lit "::1/128"] in
  let both := run [lit "10.0.0.6/31"; lit "10.0.0.7"; lit "::1/128"] in
  on_stdout one = lines [lit "10.0.0.6"; lit "10.0.0.7"] /\ on_stdout two = lines [lit "::1"] /\
  ended one = Ret 1%Z /\ ended two = Ret 0%Z /\
  both = {| on_stdout := lines [lit "10.0.0.6"; lit "10.0.0.7"; lit "::1"]; on_stderr := on_stderr one; ended := Ret 1%Z |}.
Proof. ex. Qed.

(** Describing several networks: the descriptions with a line break between them;
    or only the message for the first argument that is no network. *)
Theorem C86_show : forall (U : Unicode) (R : Rust) (T : Terminal) (prog : str) (ss ss' : list str),
  (forall w, hd_error ss = Some w \/ hd_error ss' = Some w -> ~ In w command_words) ->
  ss <> [] -> ss' <> [] -> Forall unicode (prog :: ss ++ ss') ->
  let one := main (prog :: ss) in
  let two := main (prog :: ss') in
  let both := main (prog :: ss ++ ss') in
  (ended one = Ret 0%Z /\ ended two = Ret 0%Z /\
   both = {| on_stdout := on_stdout one ++ newline ++ on_stdout two; on_stderr := []; ended := Ret 0%Z |}) \/
  (ended one = Ret 1%Z /\ both = one) \/
  (ended one = Ret 0%Z /\ ended two = Ret 1%Z /\ both = two).
Proof. exact c86_show. Qed.
Print Assumptions C86_show.
Example C86_show_ex :
  let run ss := @main no_unicode debug_env plain (lit "ripcalc" :: ss) in
  run [lit "10.0.0.6/31"; lit "::1/128"] =
  {| on_stdout := on_stdout (run [lit "10.0.0.6/31"]) ++ newline ++ on_stdout (run [lit "::1/128"]); on_stderr := []; ended := Ret 0%Z |} /\
  run [lit "10.0.0.6/31"; lit "x"] = run [lit "x"] /\ ended (run [lit "x"]) = Ret 1%Z.
Proof. ex. Qed.

(** The ends of a range can be given in either order. *)
Theorem C86_derange : forall (U : Unicode) (R : Rust) (T : Terminal) (prog w s t : str),
  In w derange_words ->
  let there := main [prog; w; s; t] in
  let back := main [prog; w; t; s] in
  on_stdout there = on_stdout back /\ ended there = ended back /\
  (on_stderr there = on_stderr back \/ ended there = Ret 1%Z /\ (no_address s \/ no_address t)).
Proof. exact c86_derange. Qed.
Print Assumptions C86_derange.
Example C86_derange_ex :
  let run s t := @main no_unicode debug_env plain [lit "ripcalc"; lit "-d"; lit s; lit t] in
  run "10.0.0.9"%string "10.0.0.4"%string = run "10.0.0.4"%string "10.0.0.9"%string /\
  on_stdout (run "10.0.0.9"%string "10.0.0.4"%string) = lines [lit "10.0.0.4/30"; lit "10.0.0.8/31"] /\
  on_stderr (run "10.0.0.9"%string ""%string) <> on_stderr (run ""%string "10.0.0.9"%string).
Proof. ex. Qed.

(** When networks are joined, neither their order nor repetitions matter. *)
Theorem C86_minimize : forall (U : Unicode) (R R' : Rust) (T : Terminal) (prog w : str) (ss ss' : list str),
  In w minimize_words -> (forall s, In s ss <-> In s ss') ->
  let this := @main U R T (prog :: w :: ss) in
  let that := @main U R' T (prog :: w :: ss') in
  on_stdout this = on_stdout that /\ ended this = ended that /\
  (on_stderr this = on_stderr that \/ ended this = Ret 1%Z).
Proof. exact c86_minimize. Qed.
Print Assumptions C86_minimize.
Example C86_minimize_ex :
  let run ss := @main no_unicode debug_env plain (lit "ripcalc" :: lit "-m" :: ss) in
  run [lit "10.0.0.6/31"; lit "9.0.0.0/8"; lit "10.0.0.4/31"] =
  run [lit "10.0.0.4/31"; lit "10.0.0.6/31"; lit "10.0.0.4/31"; lit "9.0.0.0/8"] /\
  on_stdout (run [lit "10.0.0.6/31"; lit "9.0.0.0/8"; lit "10.0.0.4/31"]) = lines [lit "9.0.0.0/8"; lit "10.0.0.4/30"].
Proof. ex. Qed.

(** Networks can be joined in several runs, each on the output of the one before and
    on further networks. *)
Theorem C86_minimize_more : forall (U U' : Unicode) (R R' : Rust) (T T' : Terminal) (F : family) (prog w w' : str) (ss ss' : list str),
  unicode prog -> In w minimize_words -> In w' minimize_words -> ss <> [] ->
  Forall (fun s => exists a n p, means F s a n /\ is_cidr n p) (ss ++ ss') ->
  let out := text_lines (on_stdout (@main U R T (prog :: w :: ss))) in
  F = V4 \/ Forall (of_family F) out ->
  @main U' R' T' (prog :: w' :: out ++ ss') = @main U R T (prog :: w :: ss ++ ss').
Proof. exact c86_minimize_more. Qed.
Print Assumptions C86_minimize_more.
Example C86_minimize_more_ex :
  let run ss := @main no_unicode debug_env plain (lit "ripcalc" :: lit "-m" :: ss) in
  let out := text_lines (on_stdout (run [lit "10.0.0.6/32"; lit "10.0.0.7/32"])) in
  out = [lit "10.0.0.6/31"] /\
  run (out ++ [lit "10.0.0.4/31"]) = run [lit "10.0.0.6/32"; lit "10.0.0.7/32"; lit "10.0.0.4/31"].
Proof. ex. Qed.

(** [ripcalc -d FIRST LAST | xargs ripcalc -e] lists the range. *)
Theorem C86_range : forall (U U' : Unicode) (R R' : Rust) (T T' : Terminal) (F : family) (prog w w' s t : str) (a b : addr F),
  unicode prog -> In w derange_words -> In w' enumerate_words -> address_text F s a -> address_text F t b ->
  N.max (value a) (value b) <> top F ->
  let out := text_lines (on_stdout (@main U R T [prog; w; s; t])) in
  F = V4 \/ Forall (of_family F) out ->
  exists l : list (addr F),
    (forall x, In x l <-> valid x /\ N.min (value a) (value b) <= value x <= N.max (value a) (value b)) /\
    StronglySorted (fun x y : addr F => value x < value y) l /\
    @main U' R' T' (prog :: w' :: out) = {| on_stdout := lines (map display l); on_stderr := []; ended := Ret 0%Z |}.
Proof. exact c86_range. Qed.
Print Assumptions C86_range.
Example C86_range_ex :
  let out := text_lines (on_stdout (@main no_unicode debug_env plain [lit "ripcalc"; lit "-d"; lit "10.0.0.6"; lit "10.0.0.3"])) in
  out = [lit "10.0.0.3/32"; lit "10.0.0.4/31"; lit "10.0.0.6/32"] /\
  @main no_unicode debug_env plain (lit "ripcalc" :: lit "-e" :: out) =
  {| on_stdout := lines [lit "10.0.0.3"; lit "10.0.0.4"; lit "10.0.0.5"; lit "10.0.0.6"]; on_stderr := []; ended := Ret 0%Z |}.
Proof. ex. Qed.

(** [ripcalc -m NETWORKS | xargs ripcalc -e] lists every address of the networks
    once. *)
Theorem C86_union : forall (U U' : Unicode) (R R' : Rust) (T T' : Terminal) (F : family) (prog w w' : str) (ss : list str),
  unicode prog -> In w minimize_words -> In w' enumerate_words -> ss <> [] ->
  Forall (fun s => exists a n p, means F s a n /\ is_cidr n p) ss ->
  let out := text_lines (on_stdout (@main U R T (prog :: w :: ss))) in
  F = V4 \/ Forall (of_family F) out ->
  exists l : list (addr F),
    (forall x, In x l <-> valid x /\ exists s a n, In s ss /\ means F s a n /\ member n x) /\
    StronglySorted (fun x y : addr F => value x < value y) l /\
    @main U' R' T' (prog :: w' :: out) = {| on_stdout := lines (map display l); on_stderr := []; ended := Ret 0%Z |}.
Proof. exact c86_union. Qed.
Print Assumptions C86_union.
Example C86_union_ex :
  let out := text_lines (on_stdout (@main no_unicode debug_env plain [lit "ripcalc"; lit "-m"; lit "10.0.0.6/31"; lit "10.0.0.7/32"; lit "10.0.0.2/31"])) in
  out = [lit "10.0.0.2/31"; lit "10.0.0.6/31"] /\
  @main no_unicode debug_env plain (lit "ripcalc" :: lit "-e" :: out) =
  {| on_stdout := lines [lit "10.0.0.2"; lit "10.0.0.3"; lit "10.0.0.6"; lit "10.0.0.7"]; on_stderr := []; ended := Ret 0%Z |}.
Proof. ex. Qed.
