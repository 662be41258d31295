(** * SpecFate: what becomes of the program, whatever its arguments.

    [duty] of SpecWhole.v leaves out the runs that do not end properly; here they are. *)
From Verif Require Import RustBase Addr Net Parse Console Main.
From Verif Require Export SpecWhole.

(** A run exits with a status, panics, or goes on for ever. *)
Inductive ending := Status (z : Z) | Crash | Forever.
Definition as_seen (r : res Z) : ending := match r with Ret z => Status z | Panic => Crash | Diverge => Forever end.

(** What the shell gets to see: a panic is status 101. *)
Definition exit_code (f : ending) : option Z :=
  match f with Status z => Some z | Crash => Some 101%Z | Forever => None end.

(** [checked]: whether the build checks arithmetic. *)
Section Fate.
Context {bits : N} {checked : bool}.
Inductive fate : list str -> list mark -> ending -> Prop :=
| fate_done args ms z : duty bits args ms z -> fate args ms (Status z)
(* a range up to the last address *)
| fate_range F prog w s t (a b : addr F) :
    In w derange_words -> address_text F s a -> address_text F t b -> N.max (value a) (value b) = top F ->
    0 < N.min (value a) (value b) \/ checked = true ->
    fate [prog; w; s; t] [] Crash
| fate_everything F prog w s t (a b : addr F) :
    In w derange_words -> address_text F s a -> address_text F t b -> N.max (value a) (value b) = top F ->
    N.min (value a) (value b) = 0 -> checked = false ->
    fate [prog; w; s; t] [] Forever
(* a split whose unused addresses reach up to the last one *)
| fate_split F prog w s ss (a : addr F) n cs r h first mss ms :
    In w split_words -> means F s a n -> counts_text ss cs -> placed n cs r ->
    split_inside n cs -> highest n h -> N.max (run_start n cs + total cs) (value h) = top F ->
    depicted n None first -> Forall2 (fun e ms => depicted e None ms) r mss -> split_page first cs mss ms ->
    fate (prog :: w :: s :: ss) (ms ++ [says (lit "Unused networks:")]) Crash.
End Fate.
Arguments fate bits checked : clear implicits.

(** The run on [args] sends out [ms] and ends as [r], whatever the terminal. *)
Definition runs `{Rust} (args : list str) (ms : list mark) (r : res Z) : Prop :=
  forall T : Terminal, do_main args = (map (paint colors_enabled) ms, r).
