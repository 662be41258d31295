(** * P_Crash: what runs that do not end properly leave behind (C83) *)
From Verif Require Import RustBase Addr Net Parse Derange Split Console ShowNet Main Messages Process Spec SpecText SpecIO SpecShow SpecMain SpecProcess Demo Pf_Crash.

(** ** C83: incomplete runs *)
(** A range up to the last address: nothing is written. The full range keeps the
    program busy for ever if arithmetic is not checked; else it panics. *)
Theorem C83_derange : forall (R : Rust) (T : Terminal) (F : family) (prog w s t : str) (a b : addr F),
  In w derange_words -> address_text F s a -> address_text F t b -> N.max (value a) (value b) = top F ->
  do_main [prog; w; s; t] =
    ([], if overflow_checks || (0 <? N.min (value a) (value b)) then Panic else Diverge).
Proof. exact c83_derange. Qed.
Print Assumptions C83_derange.
Example C83_derange_ex :
  @do_main debug_env plain [lit "ripcalc"; lit "-d"; lit "0.0.0.0"; lit "255.255.255.255"] = ([], Panic) /\
  @do_main release_env plain [lit "ripcalc"; lit "-d"; lit "255.255.255.255"; lit "10.0.0.0"] = ([], Panic).
Proof. ex. Qed.

(** A split whose rest is such a range: everything but the unused networks is
    written; the panic comes thereafter. *)
Theorem C83_split : forall (R : Rust) (F : family) (prog w s : str) (ss : list str) (a : addr F) (n : net F) (cs : list Z) (h : addr F),
  In w split_words -> means F s a n -> counts_text ss cs -> highest n h ->
  split_inside n cs -> N.max (run_start n cs + total cs) (value h) = top F ->
  exists first r mss, described n None first /\ split_subnet n cs = Ret (Some r) /\
    Forall2 (fun e ms => described e None ms) r mss /\
    forall T : Terminal, do_main (prog :: w :: s :: ss) =
      (map (paint colors_enabled) (split_marks first cs mss ++ [says (lit "Unused networks:")]), Panic).
Proof. exact c83_split. Qed.
Print Assumptions C83_split.
Example C83_split_ex :
  match @do_main release_env colourful [lit "ripcalc"; lit "-s"; lit "255.255.255.0/24"; lit "100"; lit "20"] with
  | (es, Panic) => filter (fun e => match e with EvOut s => negb (str_eqb s newline) | _ => false end) es =
      [line (lit "Subnet to split:"); line (lit "Subnet for 100 hosts:"); line (lit "Subnet for 20 hosts:");
       line (lit "Unused networks:")]
  | _ => False
  end.
Proof. ex. Qed.

(** Only the full range runs for ever, only without checks; whatever panics is one
    of the above. *)
Theorem C83_cases : forall (R : Rust) (T : Terminal) (args : list str),
  (snd (do_main args) = Diverge <->
     overflow_checks = false /\
     exists F prog w s t (a b : addr F), args = [prog; w; s; t] /\ In w derange_words /\
       address_text F s a /\ address_text F t b /\ N.max (value a) (value b) = top F /\ N.min (value a) (value b) = 0) /\
  (snd (do_main args) = Panic <-> (derange_to_top args \/ split_to_top args) /\ snd (do_main args) <> Diverge).
Proof. exact c83_cases. Qed.
Print Assumptions C83_cases.
Example C83_cases_ex :
  let run := fun s t => snd (@do_main debug_env plain [lit "ripcalc"; lit "-d"; lit s; lit t]) in
  run "0.0.0.0"%string "255.255.255.254"%string <> Panic /\
  run "ffff:ffff:ffff:ffff:ffff:ffff:ffff:ffff"%string "::"%string = Panic.
Proof. ex. Qed.

(** Seen from outside: a process that fails to end properly has written no message
    of its own, and to stdout whole lines or nothing; if anything, it is the report
    of a split up to the heading of the unused networks. *)
Theorem C83_process : forall (U : Unicode) (R : Rust) (T : Terminal) (args : list str),
  (forall z, ended (main args) <> Ret z) ->
  on_stderr (main args) = [] /\
  (on_stdout (main args) = [] \/
   split_to_top args /\ exists before, on_stdout (main args) = before ++ newline ++ lit "Unused networks:" ++ newline).
Proof. exact c83_process. Qed.
Print Assumptions C83_process.
Example C83_process_ex :
  let p := @main no_unicode debug_env plain [lit "ripcalc"; lit "-s"; lit "255.255.255.0/24"; lit "5"] in
  ended p = Panic /\ nth_error (rev (text_lines (on_stdout p))) 0 = Some (lit "Unused networks:").
Proof. ex. Qed.
