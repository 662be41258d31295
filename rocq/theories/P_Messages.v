(** * P_Messages: the wording of messages (C73) *)
From Verif Require Import RustBase Addr Parse Console Messages Main Process Spec SpecText SpecShow SpecMain SpecProcess SpecMessages Demo Pf_Messages.

(** ** C73: messages follow the catalogue, and tell the problems *)
(** What a run writes to stderr are the lines of the catalogue for its problems. *)
Theorem C73_wording : forall (U : Unicode) (R : Rust) (T : Terminal) (args : list str),
  Forall unicode args ->
  exists ls, told (problems (fst (do_main args))) ls /\ on_stderr (main args) = lines ls.
Proof. exact c73_wording. Qed.
Print Assumptions C73_wording.
Example C73_wording_ex :
  on_stderr (@main no_unicode debug_env plain [lit "ripcalc"; lit "-d"; lit "10.1.2.3"; lit "10.1.256.4"]) =
    lines [lit "failed to parse second address: IP address chunk with index 2 (256) is out of range 0 <= n <= 255 chunk"] /\
  problems (fst (@do_main debug_env plain [lit "ripcalc"; lit "-d"; lit "10.1.2.3"; lit "10.1.256.4"])) =
    [MsgSecondAddr (ChunkOutOfRange 2 256 0 255)].
Proof. ex. Qed.

(** Different problems have different lines in the catalogue. *)
Theorem C73_distinct : forall (ms ms' : list errmsg) (ls : list str),
  told ms ls -> told ms' ls -> ms = ms'.
Proof. exact c73_distinct. Qed.
Print Assumptions C73_distinct.
Example C73_distinct_ex :
  ~ told [MsgFirstAddr (EmptyChunk 1)] [lit "failed to parse first address: IP address chunk with index 2 is empty"].
Proof. exact c73_distinct_ex. Qed.

(** So stderr tells the problems of a run, whatever its arguments were. *)
Theorem C73_told_apart : forall (U U' : Unicode) (R R' : Rust) (T T' : Terminal) (args args' : list str),
  Forall unicode args -> Forall unicode args' ->
  on_stderr (@main U R T args) = on_stderr (@main U' R' T' args') ->
  problems (fst (@do_main R T args)) = problems (fst (@do_main R' T' args')).
Proof. exact c73_told_apart. Qed.
Print Assumptions C73_told_apart.
Example C73_told_apart_ex :
  on_stderr (@main no_unicode debug_env plain [lit "ripcalc"; lit "-m"; lit "x"; lit "y"]) =
  on_stderr (@main all_unicode release_env colourful [lit "ripcalc"; lit "--minimize"; lit "x"]) /\
  on_stderr (@main no_unicode debug_env plain [lit "ripcalc"; lit "-m"; lit "x"]) =
    lines [lit "parsing error: unrecognized network specification: ""x"""].
Proof. ex. Qed.
