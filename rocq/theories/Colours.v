(** * Colours: where [console::colors_enabled] comes from

    console.rs:55 asks the console crate (0.15.5) whether to use colours. Its answer
    depends on where stdout goes and on four environment variables; transcribed from
    the crate (src/utils.rs and src/unix_term.rs). *)
From Verif Require Export Process.

(** Whether stdout is a terminal (isatty), and the environment variables as bytes. *)
Record surroundings := { tty : bool; variable : str -> option str }.

(** std::env::var: an error if the variable is not set or not UTF-8. *)
Definition env_var (s : surroundings) (name : str) : option str :=
  match variable s name with
  | Some v => if is_utf8 v then Some v else None
  | None => None
  end.
Definition unwrap_or {T : Type} (o : option T) (x : T) : T := match o with Some y => y | None => x end.

(** unix_term.rs [is_a_color_terminal]. *)
Definition is_a_color_terminal (s : surroundings) : bool :=
  if negb (tty s) then false
  else if is_some (env_var s (lit "NO_COLOR")) then false
  else match env_var s (lit "TERM") with
       | Some term => negb (str_eqb term (lit "dumb"))
       | None => false
       end.

(** utils.rs [default_colors_enabled]. *)
Definition default_colors_enabled (s : surroundings) : bool :=
  (is_a_color_terminal s && negb (str_eqb (unwrap_or (env_var s (lit "CLICOLOR")) (lit "1")) (lit "0")))
  || negb (str_eqb (unwrap_or (env_var s (lit "CLICOLOR_FORCE")) (lit "0")) (lit "0")).

(** utils.rs [STDOUT_COLORS], [colors_enabled]: asked once; the program does not
    change it. *)
Definition terminal_in (s : surroundings) : Terminal := {| colors_enabled := default_colors_enabled s |}.

(** The process in its surroundings. *)
Definition main_in `{Unicode} {R : Rust} (s : surroundings) (args : list str) : process :=
  @main _ R (terminal_in s) args.
