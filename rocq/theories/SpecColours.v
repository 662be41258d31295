(** * SpecColours: when there are to be colours (C95) *)
From Verif Require Export Colours SpecProcess.

(** The variable [name] is set to the text [v]. *)
Definition set_to (s : surroundings) (name : string) (v : str) : Prop := variable s (lit name) = Some v /\ unicode v.

(** Colours are forced by CLICOLOR_FORCE with any text but 0. Otherwise they are
    used on terminals of some kind, not dumb, unless NO_COLOR is set to some text or
    CLICOLOR to 0. *)
Definition forced (s : surroundings) : Prop := exists v, set_to s "CLICOLOR_FORCE" v /\ v <> lit "0".
Definition colourable (s : surroundings) : Prop :=
  tty s = true /\ (exists v, set_to s "TERM" v /\ v <> lit "dumb") /\
  (forall v, ~ set_to s "NO_COLOR" v) /\ ~ set_to s "CLICOLOR" (lit "0").
Definition coloured (s : surroundings) : Prop := forced s \/ colourable s.

(** Two surroundings the program cannot tell apart. *)
Definition alike (s s' : surroundings) : Prop :=
  tty s = tty s' /\
  forall name v, In name ["CLICOLOR_FORCE"; "TERM"; "NO_COLOR"; "CLICOLOR"]%string -> (set_to s name v <-> set_to s' name v).
