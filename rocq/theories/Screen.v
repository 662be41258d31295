(** * Screen: stdout and stderr in one place

    The program when both streams go to the same file: a terminal, or a file with
    [2>&1]. As in Sink.v there is a line buffer before stdout and none before
    stderr, so that the order of what arrives need not be the order in which the
    program wrote it. *)
From Verif Require Export Sink.

(** [behind w] is the file; [waiting w] what waits in the buffer of stdout. *)
Definition screen_event `{Unicode} `{Stdio} (w : writer) (e : event) : writer * bool :=
  match e with
  | EvErr _ =>
      let (f, ok) := write_pieces put_all (behind w) (chop (to_stderr e)) in (with_file w (waiting w) f, ok)
  | _ => write_pieces line_write_all w (chop (to_stdout e))
  end.
Fixpoint screen_events `{Unicode} `{Stdio} (w : writer) (es : list event) : writer * bool :=
  match es with
  | [] => (w, true)
  | e :: es' => let (w', ok) := screen_event w e in if ok then screen_events w' es' else (w', false)
  end.
Definition blank (k : kind) : writer := {| waiting := []; behind := fresh k |}.

(** What is in the file when the program has sent out [es]. *)
Definition so_far `{Unicode} `{Stdio} (k : kind) (es : list event) : str :=
  taken (behind (fst (screen_events (blank k) es))).

(** What is in the file in the end, and how the program ended. *)
Record session := { on_screen : str; closed : res Z }.
(** The process. The message of a panic ([blame], whose wording is left open) is
    written to stderr, failures being ignored (std::panicking::default_hook); after
    that the buffer of stdout is written, as in Sink.v. *)
Definition main_screen `{Unicode} {R : Rust} {T : Terminal} `{Stdio} (k : kind) (blame : str) (args : list str) : session :=
  if forallb is_utf8 args then
    let (es, r) := do_main args in
    let (w, ok) := screen_events (blank k) es in
    let r := if ok then r else Panic in
    let w :=
      match r with
      | Ret _ => fst (flush_buf w)
      | Panic => fst (flush_buf (with_file w (waiting w) (fst (put_all (behind w) blame))))
      | Diverge => w
      end in
    {| on_screen := taken (behind w); closed := r |}
  else {| on_screen := taken (fst (put_all (fresh k) blame)); closed := Panic |}.
