(** * SpecScreen: what is to be seen where stdout and stderr meet (C94) *)
From Verif Require Export Screen SpecFiles SpecFate.
From Verif Require Import SpecMessages.

(** Marks one after the other without colours: fragments end with a line break,
    problems are told in full lines. *)
Inductive pasted : list mark -> str -> Prop :=
| pasted_nothing : pasted [] []
| pasted_plain s ms t : pasted ms t -> pasted (Plain s :: ms) (s ++ t)
| pasted_frag c s ms t : pasted ms t -> pasted (Frag c s :: ms) (s ++ newline ++ t)
| pasted_problem e ls ms t : told [e] ls -> pasted ms t -> pasted (Problem e :: ms) (lines ls ++ t).

(** The same with colours: problems are told in the normal pen. *)
Inductive visible : list mark -> list (ascii * pen) -> Prop :=
| visible_nothing : visible [] []
| visible_plain s ms g : visible ms g -> visible (Plain s :: ms) (map (fun x => (x, Normal)) s ++ g)
| visible_frag c s ms g : visible ms g -> visible (Frag c s :: ms) (map (fun x => (x, pen_of c)) s ++ g)
| visible_problem e ls ms g : told [e] ls -> visible ms g ->
    visible (Problem e :: ms) (map (fun x => (x, Normal)) (lines ls) ++ g).

(** [t] are the bytes for the marks [ms], one after the other. *)
Definition in_turn (colours : bool) (ms : list mark) (t : str) : Prop :=
  if colours then exists g, visible ms g /\ seen t = Some (g, Normal) else pasted ms t.
