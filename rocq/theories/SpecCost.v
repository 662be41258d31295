(** * SpecCost: how long loops run *)
From Verif Require Import RustBase Net Spec.

(** The loop that repeats [step] from [s] ends after [n] steps with [r]. *)
Inductive takes {S T : Type} (step : S -> res (S + T)) : S -> N -> T -> Prop :=
| takes_last s r : step s = Ret (inr r) -> takes step s 1 r
| takes_more s s' n r : step s = Ret (inl s') -> takes step s' n r -> takes step s (n + 1) r.

(** One step for each prefix length from that of a single address down to the one
    that is used, and one more to notice that it cannot be shortened further. *)
Definition tries {F : family} (n : net F) : N :=
  match cidr_prefix n with Some p => width F - p + 1 | None => 0 end.
Definition sum (l : list N) : N := fold_right N.add 0 l.
