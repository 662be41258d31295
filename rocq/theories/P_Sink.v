(** * P_Sink: runs whose output cannot be written (C85) *)
From Verif Require Import RustBase Addr Net Parse Console ShowNet Main Messages Process Sink Spec SpecText SpecIO SpecShow SpecMain SpecProcess Demo Pf_Sink.

(** ** C85: full disks and closed pipes *)
(** Where all fits, it makes no difference. *)
Theorem C85_fits : forall (U : Unicode) (R : Rust) (T : Terminal) (S : Stdio) (o e : option nat) (args : list str),
  enough o (List.length (on_stdout (main args))) = true -> enough e (List.length (on_stderr (main args))) = true ->
  main_on (with_room o) (with_room e) args = main args.
Proof. exact c85_fits. Qed.
Print Assumptions C85_fits.
Example C85_fits_ex :
  @main_on no_unicode debug_env plain std_stdio (with_room (Some 12%nat)) (with_room (Some 0%nat)) [lit "ripcalc"; lit "-m"; lit "10.1.2.0/25"; lit "10.1.2.128/25"] =
    {| on_stdout := lines [lit "10.1.2.0/24"]; on_stderr := []; ended := Ret 0%Z |}.
Proof. ex. Qed.

(** What is written is always the beginning of what should be. *)
Theorem C85_beginning : forall (U : Unicode) (R : Rust) (T : Terminal) (S : Stdio) (o e : option nat) (args : list str),
  exists u v, on_stdout (main args) = on_stdout (main_on (with_room o) (with_room e) args) ++ u /\ on_stderr (main args) = on_stderr (main_on (with_room o) (with_room e) args) ++ v.
Proof. exact c85_beginning. Qed.
Print Assumptions C85_beginning.
Example C85_beginning_ex :
  let p := @main_on no_unicode debug_env plain std_stdio (with_room (Some 9%nat)) (with_room None) [lit "ripcalc"; lit "-e"; lit "10.0.0.0/31"; lit "x"] in
  on_stdout p = lines [lit "10.0.0.0"] /\ on_stderr p = [] /\ ended p = Panic.
Proof. ex. Qed.

(** If the lines do not fit, the program panics, having written what fits. *)
Theorem C85_stdout : forall (U : Unicode) (R : Rust) (T : Terminal) (S : Stdio) (k : nat) (e : option nat) (args : list str) (before after : str),
  on_stdout (main args) = before ++ newline ++ after -> (k <= List.length before)%nat ->
  enough e (List.length (on_stderr (main args))) = true ->
  on_stdout (main_on (with_room (Some k)) (with_room e) args) = firstn k (on_stdout (main args)) /\ ended (main_on (with_room (Some k)) (with_room e) args) = Panic.
Proof. exact c85_stdout. Qed.
Print Assumptions C85_stdout.
Example C85_stdout_ex :
  let p := @main_on no_unicode release_env plain std_stdio (with_room (Some 20%nat)) (with_room None) [lit "ripcalc"; lit "-e"; lit "10.0.0.0/29"] in
  on_stdout p = lines [lit "10.0.0.0"; lit "10.0.0.1"] ++ lit "10" /\ ended p = Panic.
Proof. ex. Qed.

(** Likewise for messages. *)
Theorem C85_stderr : forall (U : Unicode) (R : Rust) (T : Terminal) (S : Stdio) (o : option nat) (k : nat) (args : list str),
  (k < List.length (on_stderr (main args)))%nat -> enough o (List.length (on_stdout (main args))) = true ->
  on_stderr (main_on (with_room o) (with_room (Some k)) args) = firstn k (on_stderr (main args)) /\ ended (main_on (with_room o) (with_room (Some k)) args) = Panic.
Proof. exact c85_stderr. Qed.
Print Assumptions C85_stderr.
Example C85_stderr_ex :
  @main_on no_unicode debug_env plain std_stdio (with_room None) (with_room (Some 9%nat)) [lit "ripcalc"] =
    {| on_stdout := []; on_stderr := lit "Usage: ri"; ended := Panic |}.
Proof. ex. Qed.

(** The exit status can be relied on: with any, all messages and all lines are
    written. What can be lost is an unfinished last line, of the colour test or the
    remark that there are no hosts, in colour. *)
Theorem C85_status : forall (U : Unicode) (R : Rust) (T : Terminal) (S : Stdio) (o e : option nat) (args : list str) (z : Z),
  ended (main_on (with_room o) (with_room e) args) = Ret z ->
  ended (main args) = Ret z /\ on_stderr (main args) = on_stderr (main_on (with_room o) (with_room e) args) /\
  exists lost, on_stdout (main args) = on_stdout (main_on (with_room o) (with_room e) args) ++ lost /\ ~ In "010"%char lost /\
    (lost <> [] -> colors_enabled = true /\ exists prog w rest, args = prog :: w :: rest /\
       (w = lit "--color-test" \/
        ~ In w command_words /\ exists u, styled_text White (lit "no hosts/net") = u ++ lost)).
Proof. exact c85_status. Qed.
Print Assumptions C85_status.
Example C85_status_ex :
  let run k := @main_on no_unicode debug_env colourful std_stdio (with_room (Some k)) (with_room None) [lit "ripcalc"; lit "-r"; lit "10.0.0.1/32"; lit "32"] in
  let all := on_stdout (@main no_unicode debug_env colourful [lit "ripcalc"; lit "-r"; lit "10.0.0.1/32"; lit "32"]) in
  ended (run (List.length all)) = Ret 0%Z /\ ended (run (List.length all - 1)%nat) = Panic.
Proof. ex. Qed.

(** Something can be lost indeed. *)
Theorem C85_reliable_refuted : exists (U : Unicode) (R : Rust) (T : Terminal) (S : Stdio) (args : list str),
  ended (main_on (with_room (Some 0%nat)) (with_room None) args) = Ret 0%Z /\ on_stdout (main_on (with_room (Some 0%nat)) (with_room None) args) <> on_stdout (main args).
Proof. exact c85_reliable_refuted. Qed.
Print Assumptions C85_reliable_refuted.
Example C85_reliable_refuted_ex :
  let args := [lit "ripcalc"; lit "10.0.0.1/32"] in
  let all := on_stdout (@main no_unicode debug_env colourful args) in
  let p := @main_on no_unicode debug_env colourful std_stdio (with_room (Some (List.length all - 5)%nat)) (with_room None) args in
  ended p = Ret 0%Z /\ Nat.ltb (List.length (on_stdout p)) (List.length all) = true.
Proof. ex. Qed.
