(** * P_Colours: colours and the surroundings of the program (C95) *)
From Verif Require Import RustBase Console Main Messages Process Colours SpecText SpecIO SpecShow SpecMain SpecProcess SpecColours Demo Pf_Colours.

(** ** C95: when there are colours *)
Theorem C95_exact : forall (s : surroundings), @colors_enabled (terminal_in s) = true <-> coloured s.
Proof. exact c95_exact. Qed.
Print Assumptions C95_exact.
Example C95_exact_ex :
  let of (t : bool) (vs : list (string * string)) := @colors_enabled (terminal_in
    {| tty := t; variable := fun name => option_map (fun p => lit (snd p)) (find (fun p => str_eqb (lit (fst p)) name) vs) |}) in
  map (of true)
    [ [("TERM", "xterm")]; [("TERM", "dumb")]; []; [("TERM", "xterm"); ("NO_COLOR", "")];
      [("TERM", "xterm"); ("CLICOLOR", "0")]; [("TERM", "xterm"); ("CLICOLOR", "")];
      [("NO_COLOR", "1"); ("CLICOLOR_FORCE", "1")] ]%string = [true; false; false; false; false; true; true] /\
  map (of false) [ [("TERM", "xterm")]; [("CLICOLOR_FORCE", "0")]; [("CLICOLOR_FORCE", "")] ]%string = [false; false; true].
Proof. ex. Qed.

(** A run writes escape sequences exactly if there are colours and something is
    written in colour. *)
Theorem C95_escapes : forall (U : Unicode) (R : Rust) (s : surroundings) (args : list str) (ms : list mark) (r : res Z),
  Forall unicode args -> (forall T : Terminal, @do_main R T args = (map (paint (@colors_enabled T)) ms, r)) ->
  (In "027"%char (on_stdout (main_in s args)) <-> coloured s /\ exists c t, In (Frag c t) ms).
Proof. exact c95_escapes. Qed.
Print Assumptions C95_escapes.
Example C95_escapes_ex :
  let out (force : string) (w : string) := on_stdout (@main_in no_unicode debug_env
    {| tty := false; variable := fun name => if str_eqb name (lit "CLICOLOR_FORCE") then Some (lit force) else None |}
    [lit "ripcalc"; lit w; lit "10.0.0.0/31"]) in
  map (fun p => contains_char "027" (out (fst p) (snd p)))
    [("1", "10.0.0.0/8"); ("0", "10.0.0.0/8"); ("1", "-e"); ("0", "-e")]%string = [true; false; false; false].
Proof. ex. Qed.

(** Into a pipe or a file, unless forced, the program writes plain text. *)
Theorem C95_piped : forall (U : Unicode) (R : Rust) (s : surroundings) (args : list str),
  tty s = false -> ~ forced s ->
  Forall (fun c => printable_ascii c \/ c = "010"%char) (on_stdout (main_in s args)).
Proof. exact c95_piped. Qed.
Print Assumptions C95_piped.
Example C95_piped_ex :
  on_stdout (@main_in no_unicode debug_env
    {| tty := false; variable := fun name => if str_eqb name (lit "TERM") then Some (lit "xterm") else None |}
    [lit "ripcalc"; lit "-r"; lit "10.0.0.0/33"; lit "8"]) = [] /\
  match on_stdout (@main_in no_unicode debug_env {| tty := false; variable := fun _ => Some (lit "0") |}
    [lit "ripcalc"; lit "10.0.0.0/32"]) with c :: _ => c = "A"%char | [] => False end.
Proof. ex. Qed.

(** Messages and the end do not depend on the surroundings; neither does stdout where
    nothing is written in colour, in particular with the commands that list networks
    or addresses. *)
Theorem C95_same : forall (U : Unicode) (R : Rust) (s s' : surroundings) (args : list str),
  on_stderr (main_in s args) = on_stderr (main_in s' args) /\ ended (main_in s args) = ended (main_in s' args) /\
  (coloured s /\ coloured s' \/ ~ coloured s /\ ~ coloured s' -> main_in s args = main_in s' args) /\
  forall prog w rest, args = prog :: w :: rest -> In w (minimize_words ++ derange_words ++ enumerate_words) ->
    main_in s args = main_in s' args.
Proof. exact c95_same. Qed.
Print Assumptions C95_same.
Example C95_same_ex :
  let s := {| tty := true; variable := fun name => if str_eqb name (lit "TERM") then Some (lit "xterm") else None |} in
  let s' := {| tty := false; variable := fun _ => None |} in
  let args := [lit "ripcalc"; lit "-d"; lit "10.0.0.0"; lit "10.0.0.2"] in
  @main_in no_unicode debug_env s args = @main_in no_unicode debug_env s' args /\
  on_stdout (@main_in no_unicode debug_env s args) = lines [lit "10.0.0.0/31"; lit "10.0.0.2/32"] /\
  @colors_enabled (terminal_in s) = true /\ @colors_enabled (terminal_in s') = false.
Proof. ex. Qed.

(** Nothing else in the surroundings matters. *)
Theorem C95_alike : forall (U : Unicode) (R : Rust) (s s' : surroundings) (args : list str),
  alike s s' -> main_in s args = main_in s' args.
Proof. exact c95_alike. Qed.
Print Assumptions C95_alike.
Example C95_alike_ex :
  let of (name v : string) := {| tty := true; variable := fun n =>
    if str_eqb n (lit "TERM") then Some (lit "xterm") else if str_eqb n (lit name) then Some (lit v) else None |} in
  @main_in no_unicode debug_env (of "LANG" "C")%string [lit "ripcalc"; lit "--color-test"] =
  @main_in no_unicode debug_env (of "COLUMNS" "80")%string [lit "ripcalc"; lit "--color-test"].
Proof. ex. Qed.
