(** * SpecOrdering: vocabulary for arguments in another order (C101) *)
From Verif Require Import RustBase.

(** The texts one after the other, with [sep] between them. *)
Fixpoint parted (sep : str) (ts : list str) : str :=
  match ts with
  | [] => []
  | [t] => t
  | t :: ts' => t ++ sep ++ parted sep ts'
  end.
