(** * SpecIO: vocabulary for what the program prints *)
From Verif Require Import RustBase Addr Net Console Spec.

(** One line on stdout. *)
Definition line (s : str) : event := EvOut (s ++ newline).

(** A printer of networks: on the networks and addresses there are, it prints
    something and returns. *)
Definition prints {F : family} (out : net F -> option (addr F) -> io unit) : Prop :=
  forall n a, wf_net n -> (forall x, a = Some x -> valid x) -> snd (out n a) = Ret tt.

(** What split prints before the unused networks. *)
Definition split_report {F : family} (out : net F -> option (addr F) -> io unit)
           (n : net F) (cs : list Z) (r : list (net F)) : list event :=
  [line (lit "Subnet to split:")] ++ fst (out n None) ++ [line []] ++
  flat_map (fun cm => [line (lit "Subnet for " ++ fmt_Z (fst cm) ++ lit " hosts:")] ++
                      fst (out (snd cm) None) ++ [line []])
           (combine cs r).
