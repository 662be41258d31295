(** * SpecTold: vocabulary for comparing runs *)
From Verif Require Import RustBase Addr Net Spec SpecText SpecMain.

(** Arguments that ask for the description of networks and can all be read. *)
Definition show_request (ss : list str) : Prop :=
  ss <> [] /\ (forall w, hd_error ss = Some w -> ~ In w command_words) /\
  (forall s, In s ss -> ~ nonsense s).

(** Two texts that stand for the same address in the same network. *)
Definition same_meaning (s s' : str) : Prop :=
  forall F (a : addr F) (n : net F), means F s a n <-> means F s' a n.

(** Two texts that stand for the same network. *)
Definition same_network (s s' : str) : Prop :=
  forall F (n : net F), (exists a, means F s a n) <-> (exists a, means F s' a n).

(** The addresses in the networks that texts stand for. *)
Definition covered (ss : list str) {F : family} (c : addr F) : Prop :=
  exists s a n, In s ss /\ means F s a n /\ member n c.

(** Two texts that stand for the ends of the range from [lo] to [hi]. *)
Definition spans (s t : str) (F : family) (lo hi : N) : Prop :=
  exists a b : addr F, address_text F s a /\ address_text F t b /\
    lo = N.min (value a) (value b) /\ hi = N.max (value a) (value b).

(** Arguments that stand for CIDR networks of a family. *)
Definition cidr_texts (F : family) (ss : list str) : Prop :=
  ss <> [] /\ Forall (fun s => exists a n p, means F s a n /\ is_cidr n p) ss.
