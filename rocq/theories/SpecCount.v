(** * SpecCount: vocabulary for numbers of addresses *)
From Verif Require Import RustBase Addr Net Spec.

(** The address is in one of the networks. *)
Definition covered {F : family} (l : list (net F)) (a : addr F) : Prop :=
  exists n, In n l /\ member n a.

(** Exactly [k] addresses have the property. *)
Definition number {F : family} (P : addr F -> Prop) (k : N) : Prop :=
  exists l : list (addr F),
    NoDup l /\ (forall a, In a l <-> valid a /\ P a) /\ N.of_nat (List.length l) = k.

(** The numbers of addresses of the networks add up to [k]. *)
Definition sizes {F : family} (l : list (net F)) (k : N) : Prop :=
  exists ks, Forall2 count l ks /\ fold_right N.add 0 ks = k.

(** [cs'] asks for no more than [cs]: some requests are dropped, others made smaller,
    in whatever order. *)
Definition asks_less (cs' cs : list Z) : Prop :=
  exists kept dropped, Permutation cs (kept ++ dropped) /\ Forall2 Z.le cs' kept.
