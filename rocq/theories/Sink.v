(** * Sink: the program when its output cannot be written

    Model of what [print!], [println!] and [eprintln!] do with files that take less
    than they are asked to, fail, or are not open for writing: the standard library's
    line buffer in front of stdout, the panic when writing fails, and the emptying of
    the buffer when the process ends. *)
From Verif Require Export Process.

(** What the operating system says to a request to write: it takes some of the
    bytes (none of them counts as a failure, ErrorKind::WriteZero), or it fails.
    Requests that are interrupted are made again; an answer is what comes in the
    end. *)
Inductive answer := Takes (n : nat) | Fails.

(** How a file behaves: whether it is open for writing, and its answers to the
    requests made, in order. (What they are asked with does not matter: a run makes
    one sequence of requests.) *)
Record kind := { writable : bool; answers : nat -> answer }.
(** A file, the number of requests made so far, and what it took. *)
Record file := { of_kind : kind; asked : nat; taken : str }.
Definition fresh (k : kind) : file := {| of_kind := k; asked := 0; taken := [] |}.

(** [Write::write_all] of the file itself, also the loop in BufWriter::flush_buf:
    requests until all is taken. The result tells how many bytes were taken, and
    whether that was all of them. Writing to what is not open for writing counts as
    done (std::io::stdio::handle_ebadf). Every request takes a byte or is the last;
    [fuel] is at least the number of bytes. *)
Fixpoint requests (fuel : nat) (f : file) (s : str) : file * nat * bool :=
  match s, fuel with
  | [], _ => (f, 0%nat, true)
  | _, O => (f, 0%nat, false)
  | _ :: _, S fuel' =>
      let next t := {| of_kind := of_kind f; asked := S (asked f); taken := taken f ++ t |} in
      match answers (of_kind f) (asked f) with
      | Takes (S n) =>
          let '(f', m, ok) := requests fuel' (next (firstn (S n) s)) (skipn (S n) s) in
          (f', (List.length (firstn (S n) s) + m)%nat, ok)
      | _ => (next [], 0%nat, false)
      end
  end.
Definition put (f : file) (s : str) : file * nat * bool :=
  if writable (of_kind f) then requests (List.length s) f s else (f, List.length s, true).

(** A file that takes [room] bytes in all ([None]: any number) and refuses
    everything thereafter: a full disk, a pipe whose reader is gone. *)
Definition with_room (room : option nat) : kind :=
  {| writable := true;
     answers := fun i => match room with Some r => if Nat.ltb i r then Takes 1 else Fails | None => Takes 1 end |}.
(** Whether [room] suffices for [k] bytes. *)
Definition enough (room : option nat) (k : nat) : bool :=
  match room with Some r => Nat.leb k r | None => true end.

(** What is left open: the size of the buffer of stdout (1024 bytes at the time of
    writing), and into which pieces the formatting machinery cuts a text. *)
Class Stdio : Type := {
  capacity : nat;
  chop : str -> list str;
  chop_law : forall s, List.concat (chop s) = s
}.

(** std::io::LineWriter around the file: bytes waiting to be written, the file. *)
Record writer := { waiting : str; behind : file }.
Definition with_file (w : writer) (b : str) (f : file) : writer := {| waiting := b; behind := f |}.

(** BufWriter::flush_buf: what was written is dropped from the buffer. *)
Definition flush_buf (w : writer) : writer * bool :=
  let '(f, n, ok) := put (behind w) (waiting w) in (with_file w (skipn n (waiting w)) f, ok).

(** BufWriter::write_all and write_all_cold. *)
Definition buf_write_all `{Stdio} (w : writer) (s : str) : writer * bool :=
  let spare w := (capacity - List.length (waiting w))%nat in
  if Nat.ltb (List.length s) (spare w) then (with_file w (waiting w ++ s) (behind w), true)
  else
    let (w, ok) := if Nat.ltb (spare w) (List.length s) then flush_buf w else (w, true) in
    if negb ok then (w, false)
    else if Nat.leb capacity (List.length s) then
      let '(f, _, ok) := put (behind w) s in (with_file w (waiting w) f, ok)
    else (with_file w (waiting w ++ s) (behind w), true).

(** [memrchr]: the text up to its last line break, and the rest; [None] if there
    is no line break. *)
Fixpoint last_line_break (s : str) : option (str * str) :=
  match s with
  | [] => None
  | c :: s' =>
      match last_line_break s' with
      | Some (l, t) => Some (c :: l, t)
      | None => if Ascii.eqb c "010" then Some ([c], s') else None
      end
  end.

(** LineWriterShim::write_all. *)
Definition line_write_all `{Stdio} (w : writer) (s : str) : writer * bool :=
  match last_line_break s with
  | None =>
      (* flush_if_completed_line *)
      let (w, ok) :=
        match rev (waiting w) with
        | c :: _ => if Ascii.eqb c "010" then flush_buf w else (w, true)
        | [] => (w, true)
        end in
      if negb ok then (w, false) else buf_write_all w s
  | Some (lines, tail) =>
      let (w, ok) :=
        match waiting w with
        | [] => let '(f, _, ok) := put (behind w) lines in (with_file w [] f, ok)
        | _ => let (w, ok) := buf_write_all w lines in if negb ok then (w, false) else flush_buf w
        end in
      if negb ok then (w, false) else buf_write_all w tail
  end.

(** [Write::write_fmt]: piece after piece, up to the first failure. *)
Fixpoint write_pieces {W : Type} (write : W -> str -> W * bool) (w : W) (ss : list str) : W * bool :=
  match ss with
  | [] => (w, true)
  | s :: ss' => let (w', ok) := write w s in if ok then write_pieces write w' ss' else (w', false)
  end.

(** Stdout and stderr; stderr has no buffer. *)
Record outputs := { out : writer; err : file }.
Definition put_all (f : file) (s : str) : file * bool := let '(f', _, ok) := put f s in (f', ok).
Definition write_event `{Unicode} `{Stdio} (o : outputs) (e : event) : outputs * bool :=
  match e with
  | EvErr _ =>
      let (f, ok) := write_pieces put_all (err o) (chop (to_stderr e)) in ({| out := out o; err := f |}, ok)
  | _ =>
      let (w, ok) := write_pieces line_write_all (out o) (chop (to_stdout e)) in ({| out := w; err := err o |}, ok)
  end.
(** The output of a run, up to the first failure, at which the program panics. *)
Fixpoint write_events `{Unicode} `{Stdio} (o : outputs) (es : list event) : outputs * bool :=
  match es with
  | [] => (o, true)
  | e :: es' => let (o', ok) := write_event o e in if ok then write_events o' es' else (o', false)
  end.

(** The process: when it ends, by a status or by a panic, the buffer of stdout is
    written, and failures are ignored (std::rt::cleanup). *)
Definition main_on `{Unicode} {R : Rust} {T : Terminal} `{Stdio} (stdout stderr : kind) (args : list str) : process :=
  if forallb is_utf8 args then
    let (es, r) := do_main args in
    let start := {| out := {| waiting := []; behind := fresh stdout |}; err := fresh stderr |} in
    let (o, ok) := write_events start es in
    let r := if ok then r else Panic in
    {| on_stdout := taken (behind (match r with Diverge => out o | _ => fst (flush_buf (out o)) end));
       on_stderr := taken (err o); ended := r |}
  else {| on_stdout := []; on_stderr := []; ended := Panic |}.

(** The standard library as it is, printing texts in one piece. *)
Definition std_stdio : Stdio := {| capacity := 1024; chop := fun s => [s]; chop_law := fun s => app_nil_r s |}.
