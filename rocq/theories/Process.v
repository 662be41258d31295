(** * Process: the program as the operating system runs it

    Model of [main] (main.rs:47-48,76-78) and of the styling of text by the
    console crate (console.rs:52-76): from the bytes of the arguments to the
    bytes on stdout and stderr and the exit status. *)
From Verif Require Export Messages Main.

(** ** Colours on the terminal *)
(** The colours of the console crate, with console::Color::ansi_num. *)
Inductive ansi := ABlack | ARed | AGreen | AYellow | ABlue | AMagenta | ACyan | AWhite.
Definition ansi_num (c : ansi) : N :=
  match c with
  | ABlack => 0 | ARed => 1 | AGreen => 2 | AYellow => 3
  | ABlue => 4 | AMagenta => 5 | ACyan => 6 | AWhite => 7
  end.
(** console.rs:57-74: the style a colour stands for: whether it is bright, and the
    colour proper. *)
Definition style (c : color) : bool * ansi :=
  match c with
  | Black => (false, ABlack)
  | DarkBlue => (false, ABlue)
  | DarkGreen => (false, AGreen)
  | DarkCyan => (false, ACyan)
  | DarkRed => (false, ARed)
  | DarkMagenta => (false, AMagenta)
  | DarkYellow => (false, AYellow)
  | Gray => (false, AWhite)
  | DarkGray => (true, ABlack)
  | Blue => (true, ABlue)
  | Green => (true, AGreen)
  | Cyan => (true, ACyan)
  | Red => (true, ARed)
  | Magenta => (true, AMagenta)
  | Yellow => (true, AYellow)
  | White => (true, AWhite)
  end.
Definition escape : ascii := "027"%char.
(** console 0.15: [impl Display for StyledObject], of text with a foreground colour
    and nothing else, while colours are enabled. *)
Definition styled_text (c : color) (s : str) : str :=
  (let (bright, a) := style c in
   escape :: (if bright then lit "[38;5;" ++ fmt_dec (ansi_num a + 8) ++ lit "m"
              else lit "[" ++ fmt_dec (ansi_num a + 30) ++ lit "m")) ++
  s ++ escape :: lit "[0m".

(** What an event adds to stdout and to stderr. *)
Definition to_stdout (e : event) : str :=
  match e with
  | EvOut s => s
  | EvStyled c s => styled_text c s
  | EvErr _ => []
  end.
Definition to_stderr `{Unicode} (e : event) : str :=
  match e with
  | EvErr m => message_text m
  | _ => []
  end.

(** ** The process *)
(** What is seen of a process from outside: all it wrote to stdout and stderr, and
    how it ended: with an exit status, by a panic (the panic message on stderr is
    not modelled), or not at all. *)
Record process := { on_stdout : str; on_stderr : str; ended : res Z }.

Definition run_of `{Unicode} {R : Rust} {T : Terminal} (args : list str) : process :=
  let (es, r) := do_main args in
  {| on_stdout := flat_map to_stdout es; on_stderr := flat_map to_stderr es; ended := r |}.

(** main.rs:48 [std::env::args] panics when an argument is not UTF-8; main.rs:76-78
    exits with the result of [do_main]. *)
Definition main `{Unicode} {R : Rust} {T : Terminal} (args : list str) : process :=
  if forallb is_utf8 args then run_of args
  else {| on_stdout := []; on_stderr := []; ended := Panic |}.
