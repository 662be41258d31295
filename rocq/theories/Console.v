(** * Console: model of /repo/src/console.rs, and the output monad *)
From Verif Require Export RustBase Addr Cidr BitManip Net Regex Parse.

(** console.rs:7-25. *)
Inductive color :=
| Black | DarkBlue | DarkGreen | DarkCyan | DarkRed | DarkMagenta | DarkYellow | Gray
| DarkGray | Blue | Green | Cyan | Red | Magenta | Yellow | White.

(** The messages written to stderr, as data (for their wording see Messages.v).
    Cited lines: the [eprintln!] calls. *)
Inductive errmsg :=
| MsgUsage                                            (* main.rs:30-45 *)
| MsgFirstAddr (e : addr_error)                       (* derange.rs:19 *)
| MsgSecondAddr (e : addr_error)                      (* derange.rs:26 *)
| MsgVersions                                         (* derange.rs:32 *)
| MsgMixing                                           (* minimize.rs:21 *)
| MsgParsing (e : netspec_error)                      (* minimize.rs:45 *)
| MsgHostCount (s : str) (e : int_error)              (* split.rs:27 *)
| MsgHostCountNegative                                (* split.rs:32 *)
| MsgSplitNetspec (s : str) (e : netspec_error)       (* split.rs:40 *)
| MsgNetspec (s : str) (e : netspec_error)            (* resize.rs:22 *)
| MsgSubnet (s : str) (e : netspec_error)             (* resize.rs:28,53 *)
| MsgCidrMax (got max : N)                            (* resize.rs:33,58 *)
| MsgMask6ForNet4                                     (* resize.rs:43 *)
| MsgMask4ForNet6                                     (* resize.rs:68 *)
| MsgNetwork (s : str) (e : netspec_error)            (* enumerate.rs:62 *)
| MsgError (e : netspec_error).                       (* show_net.rs:28 *)

(** What the program does to the outside world: text printed to stdout, text
    printed to stdout in a style (console::style; for the escape codes see
    Process.v), a message on stderr. *)
Inductive event :=
| EvOut (s : str)
| EvStyled (c : color) (s : str)
| EvErr (m : errmsg).

(** A computation that prints: the events up to its end, and how it ended. *)
Definition io (T : Type) : Type := list event * res T.
Definition io_ret {T : Type} (x : T) : io T := ([], Ret x).
Definition io_lift {T : Type} (r : res T) : io T := ([], r).
Definition io_bind {T U : Type} (m : io T) (f : T -> io U) : io U :=
  match snd m with
  | Ret x => let k := f x in (fst m ++ fst k, snd k)
  | Panic => (fst m, Panic)
  | Diverge => (fst m, Diverge)
  end.
Notation "x <-- e ;; k" := (io_bind e (fun x => k))
  (at level 61, e at next level, right associativity).
Notation "e ;;; k" := (io_bind e (fun _ => k))
  (at level 61, right associativity).

Definition newline : str := ["010"%char].
(** [print!], [println!], [eprintln!]. *)
Definition print (s : str) : io unit := ([EvOut s], Ret tt).
Definition println (s : str) : io unit := print (s ++ newline).
Definition eprintln (m : errmsg) : io unit := ([EvErr m], Ret tt).

(** A for loop whose body prints. *)
Fixpoint io_for {T : Type} (l : list T) (body : T -> io unit) : io unit :=
  match l with
  | [] => io_ret tt
  | x :: l' => body x ;;; io_for l' body
  end.

(** Loops whose body prints: [loop] and [while] of RustBase, printing. *)
Fixpoint io_loop {S R : Type} (step : S -> io (S + R)) (k : nat) (s : S) : io (S + R) :=
  match k with
  | O => step s
  | Datatypes.S k' =>
      o <-- io_loop step k' s ;;
      match o with
      | inl s' => io_loop step k' s'
      | inr r => io_ret (inr r)
      end
  end.
Definition io_while {S R : Type} (step : S -> io (S + R)) (s : S) : io R :=
  o <-- io_loop step fuel_doublings s ;;
  match o with
  | inl _ => io_lift Diverge
  | inr r => io_ret r
  end.

(** console::colors_enabled() of the console crate: depends on the terminal and
    the environment. *)
Class Terminal : Type := { colors_enabled : bool }.

(** console.rs:30-51: padding, with exact integers (for the isize arithmetic of the
    code see Padding.v; the two agree but for [isize::MIN], which the program does not
    ask for: C93). *)
Definition pad (text : str) (pad_to : Z) : str :=
  let len := Z.of_nat (List.length text) in
  if (0 <? pad_to)%Z then
    if (len <? pad_to)%Z
    then text ++ repeat " "%char (Z.to_nat (pad_to - len))
    else text
  else if (pad_to <? 0)%Z then
    if (pad_to <? - len)%Z
    then repeat " "%char (Z.to_nat (- pad_to - len)) ++ text
    else text
  else text.

(** console.rs:29-82 [write_in_color]. The crate only compiles with the console
    feature (line 54 refers to the console crate unconditionally), so
    [cfg!(feature = console)] is true. *)
Definition write_in_color `{Terminal} (text : str) (color : option color) (pad_to : Z) : io unit :=
  let padded := pad text pad_to in
  if colors_enabled then
    match color with
    | Some clr => ([EvStyled clr padded], Ret tt)
    | None => println padded
    end
  else println padded.
