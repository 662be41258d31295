(** * P_Files: runs whose files behave in any way whatever (C89) *)
From Verif Require Import RustBase Addr Net Parse Console ShowNet Main Messages Process Sink Spec SpecText SpecIO SpecShow SpecMain SpecProcess SpecFiles Demo Pf_Files.

(** ** C89: short writes, failures, streams that are not open *)
(** Files that take little at a time get everything; for files that are not open for
    writing the program does as if they were. *)
Theorem C89_obliging : forall (U : Unicode) (R : Rust) (T : Terminal) (S : Stdio) (o e : kind) (args : list str),
  obliging o -> obliging e ->
  main_on o e args =
    {| on_stdout := received o (on_stdout (main args)); on_stderr := received e (on_stderr (main args)); ended := ended (main args) |}.
Proof. exact c89_obliging. Qed.
Print Assumptions C89_obliging.
Example C89_obliging_ex :
  @main_on no_unicode debug_env plain std_stdio (sips 3) unwritable [lit "ripcalc"; lit "-e"; lit "10.0.0.0/31"; lit "x"] =
    {| on_stdout := lines [lit "10.0.0.0"; lit "10.0.0.1"]; on_stderr := []; ended := Ret 1%Z |}.
Proof. ex. Qed.

(** Whatever happens, what is in the files is the beginning of what should be. *)
Theorem C89_beginning : forall (U : Unicode) (R : Rust) (T : Terminal) (S : Stdio) (o e : kind) (args : list str),
  exists u v, on_stdout (main args) = on_stdout (main_on o e args) ++ u /\ on_stderr (main args) = on_stderr (main_on o e args) ++ v.
Proof. exact c89_beginning. Qed.
Print Assumptions C89_beginning.
Example C89_beginning_ex :
  let p := @main_on no_unicode debug_env plain std_stdio (hiccup 2 5) (sips 1) [lit "ripcalc"; lit "-e"; lit "10.0.0.0/30"; lit "x"] in
  on_stdout p = lines [lit "10.0.0.0"] /\ on_stderr p = [] /\ ended p = Panic.
Proof. ex. Qed.

(** The program ends as it should, or it panics because a request failed. *)
Theorem C89_ended : forall (U : Unicode) (R : Rust) (T : Terminal) (S : Stdio) (o e : kind) (args : list str),
  ended (main_on o e args) = ended (main args) \/
  ended (main_on o e args) = Panic /\ exists i, fails_at o i \/ fails_at e i.
Proof. exact c89_ended. Qed.
Print Assumptions C89_ended.
Example C89_ended_ex :
  let run k := ended (@main_on no_unicode debug_env plain std_stdio (hiccup k 100) unwritable [lit "ripcalc"; lit "-e"; lit "10.0.0.0/30"]) in
  run 3%nat = Panic /\ run 4%nat = Ret 0%Z.
Proof. ex. Qed.

(** An exit status still means that all messages and all lines are written (to files
    open for writing), and that only an unfinished last line can be lost. *)
Theorem C89_status : forall (U : Unicode) (R : Rust) (T : Terminal) (S : Stdio) (o e : kind) (args : list str) (z : Z),
  ended (main_on o e args) = Ret z ->
  ended (main args) = Ret z /\ on_stderr (main_on o e args) = received e (on_stderr (main args)) /\
  exists kept lost, on_stdout (main args) = kept ++ lost /\ on_stdout (main_on o e args) = received o kept /\ ~ In "010"%char lost /\
    (lost <> [] -> colors_enabled = true /\ exists prog w rest, args = prog :: w :: rest /\
       (w = lit "--color-test" \/
        ~ In w command_words /\ exists u, styled_text White (lit "no hosts/net") = u ++ lost)).
Proof. exact c89_status. Qed.
Print Assumptions C89_status.
Example C89_status_ex :
  let args := [lit "ripcalc"; lit "--color-test"] in
  let p := @main_on no_unicode debug_env colourful std_stdio (hiccup 1 7) unwritable args in
  ended p = Ret 0%Z /\ on_stdout p = firstn 7 (on_stdout (@main no_unicode debug_env colourful args)).
Proof. ex. Qed.
