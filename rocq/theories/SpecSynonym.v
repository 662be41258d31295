(** * SpecSynonym: vocabulary for command lines that say the same (C100) *)
From Verif Require Import RustBase Addr Net.
From Verif Require Export Spec SpecMain SpecProcess.

(** Two texts that are the same, or stand for the same address in the same network. *)
Definition same_place (s t : str) : Prop :=
  s = t \/ exists F (a : addr F) (n : net F), means F s a n /\ means F t a n.
(** ... for the same network. *)
Definition same_net (s t : str) : Prop :=
  s = t \/ exists F (a b : addr F) (n : net F), means F s a n /\ means F t b n.
(** ... for the same address. *)
Definition same_address (s t : str) : Prop :=
  s = t \/ exists F (a : addr F), address_text F s a /\ address_text F t a.
(** ... for the same number of hosts. *)
Definition same_count (s t : str) : Prop :=
  s = t \/ exists c, count_text s c /\ count_text t c.
(** ... for the same mask, where a network is given by [net]. *)
Definition same_mask (net s t : str) : Prop :=
  s = t \/ exists F (m : addr F), of_family F net /\ mask_text F s m /\ mask_text F t m.

(** Two command lines without the name of the program. *)
Inductive synonyms : list str -> list str -> Prop :=
| synonyms_show ss ts : (forall w, hd_error ss = Some w -> ~ In w command_words) ->
    Forall2 same_place ss ts -> synonyms ss ts
| synonyms_minimize w w' ss ts : In w minimize_words -> In w' minimize_words ->
    Forall2 same_net ss ts -> synonyms (w :: ss) (w' :: ts)
| synonyms_enumerate w w' ss ts : In w enumerate_words -> In w' enumerate_words ->
    Forall2 same_net ss ts -> synonyms (w :: ss) (w' :: ts)
| synonyms_derange w w' ss ts : In w derange_words -> In w' derange_words ->
    Forall2 same_address ss ts -> synonyms (w :: ss) (w' :: ts)
| synonyms_split w w' s t ss ts : In w split_words -> In w' split_words ->
    same_net s t -> Forall2 same_count ss ts -> synonyms (w :: s :: ss) (w' :: t :: ts)
| synonyms_resize w w' s t ss ts : In w resize_words -> In w' resize_words ->
    same_net s t -> Forall2 (same_mask s) ss ts -> synonyms (w :: s :: ss) (w' :: t :: ts).
