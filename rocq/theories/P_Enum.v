(** * Properties of enumerate (NetworkIter): C55 *)
From Verif Require Import RustBase Addr Cidr BitManip Net Enumerate Spec Observe Demo Pf_Enum.

Theorem C55_lists_exactly : forall (R : Rust) (F : family) (n : net F),
  wf_net n ->
  exists l, enumerate_net n = Ret l /\
    (forall a, In a l <-> valid a /\ member n a) /\
    StronglySorted (fun a b : addr F => value a < value b) l.
Proof. exact c55_lists_exactly. Qed.
Print Assumptions C55_lists_exactly.
Example C55_lists_exactly_ex :
  @enumerate_net debug_env (addr V4) ipv4_ops (new_with_mask (ip4 192 64 2 0) (ip4 255 254 255 254)) =
    Ret [ip4 192 64 2 0; ip4 192 64 2 1; ip4 192 65 2 0; ip4 192 65 2 1] /\
  @enumerate_net debug_env (addr V4) ipv4_ops (new_with_mask (ip4 255 255 255 254) (ip4 255 255 255 254)) =
    Ret [ip4 255 255 255 254; ip4 255 255 255 255].
Proof. ex. Qed.

(** Calling [next] any number of times yields the items of that list, then
    nothing, forever. [results k it] are the results of [k] calls. *)
Theorem C55_iterator : forall (R : Rust) (F : family) (n : net F),
  wf_net n ->
  exists l it, enumerate_net n = Ret l /\ iter_new n = Ret it /\
    forall k, results k it = Ret (firstn k (map Some l) ++ repeat None (k - List.length l)).
Proof. exact c55_iterator. Qed.
Print Assumptions C55_iterator.
Example C55_iterator_ex :
  (it <- @iter_new debug_env (addr V4) ipv4_ops (new_with_mask (ip4 255 255 255 254) (ip4 255 255 255 254)) ;;
   @results debug_env V4 4%nat it) = Ret [Some (ip4 255 255 255 254); Some (ip4 255 255 255 255); None; None].
Proof. ex. Qed.
