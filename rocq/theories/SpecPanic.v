(** * SpecPanic: vocabulary for where the program panics (C99) *)
From Verif Require Import RustBase Addr Net Panics.
From Verif Require Export Spec SpecMain SpecProcess SpecFate.

(** A result without the place of its panic. *)
Definition without_place {T : Type} (r : tried T) : res T :=
  match r with Fine x => Ret x | Panicked _ => Panic | Endless => Diverge end.

(** The command line asks for the range of all addresses. *)
Definition everything (args : list str) : Prop :=
  exists F prog w s t (a b : addr F), args = [prog; w; s; t] /\ In w derange_words /\
    address_text F s a /\ address_text F t b /\
    N.max (value a) (value b) = top F /\ N.min (value a) (value b) = 0.

(** [networks] are CIDR networks, in order, that have the addresses from [lo] to [hi]. *)
Definition makes_up {F : family} (networks : list (net F)) (lo hi : N) : Prop :=
  Forall (fun n => exists p, is_cidr n p) networks /\
  (forall c : addr F, valid c -> (lo <= value c <= hi <-> exists n, In n networks /\ member n c)) /\
  StronglySorted (fun n n' : net F => forall x y, valid x -> valid y ->
                    member n x -> member n' y -> value x < value y) networks.

(** A loop gets from one state to another. *)
Inductive reaches {X Y : Type} (step : X -> res (X + Y)) : X -> X -> Prop :=
| reaches_here s : reaches step s s
| reaches_next s s' s'' : step s = Ret (inl s') -> reaches step s' s'' -> reaches step s s''.
