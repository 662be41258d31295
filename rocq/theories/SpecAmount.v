(** * SpecAmount: how much is written (C98) *)
From Verif Require Import RustBase Addr Net Console SpecText SpecIO SpecShow.
From Verif Require Export SpecProcess SpecWhole.

(** The number of line breaks in [s]. *)
Definition line_ends (s : str) : N := N.of_nat (List.length (filter (Ascii.eqb "010") s)).

Definition add_up (l : list N) : N := fold_right N.add 0 l.

(** Without colours each fragment is on a line of its own: the lines for a remark, and
    for a row whose binary column has [k] bits in a fragment. *)
Definition remark_lines (colours : bool) : N := if colours then 1 else 2.
Definition row_lines (colours : bool) (F : family) (k : N) : N :=
  if colours then 1 else 2 + (width F / k + (width F / N.of_nat (group_size F) - 1)) + 1.

(** How many lines the description of a network with [k] addresses takes up. [address]:
    whether an address in it is described too; [class]: whether the network has a class.
    The last line of one with at most two addresses has no end if there are colours. *)
Definition height (colours : bool) (F : family) (address : bool) (k : N) (class : bool) : N :=
  (if address then row_lines colours F 1 + 2 * row_lines colours F 8 + remark_lines colours else 0) +
  row_lines colours F 1 +
  (if 4 <=? k then 2 * row_lines colours F 8 else remark_lines colours) +
  (if 2 <=? k then row_lines colours F 8 else remark_lines colours) +
  (if 2 <? k then (if colours then 1 else 3 + N.b2n class) else (if colours then 0 else 1)).

Definition has {X : Type} (o : option X) : bool := match o with Some _ => true | None => false end.

(** [s] names a network with [h] lines of description. *)
Definition takes_up (colours : bool) (s : str) (h : N) : Prop :=
  exists F (a : addr F) n k class, means F s a n /\ count n k /\ class_of F n class /\
    h = height colours F true k (has class).

(** [s] names a network with as many addresses, or none. *)
Definition yields (s : str) (addresses problems : N) : Prop :=
  (exists F (a : addr F) n, means F s a n /\ count n addresses /\ problems = 0) \/
  (~ sensible s /\ addresses = 0 /\ problems = 1).
