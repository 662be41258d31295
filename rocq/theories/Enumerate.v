(** * Enumerate: model of /repo/src/cmds/enumerate.rs (NetworkIter) *)
From Verif Require Export RustBase Addr Cidr BitManip Net.

(** enumerate.rs:10-15 [struct NetworkIter]. *)
Record network_iter (A : Type) : Type := NetworkIter {
  it_is_empty : bool;
  unraveled_addr : A;
  last_unraveled_addr : A;
  it_subnet_mask : A
}.
Arguments NetworkIter {A}.
Arguments it_is_empty {A}.
Arguments unraveled_addr {A}.
Arguments last_unraveled_addr {A}.
Arguments it_subnet_mask {A}.

Section Generic.
  Context `{Rust} {A : Type} `{IpAddress A}.

  (** enumerate.rs:17-26. *)
  Definition iter_new (net : network A) : res (network_iter A) :=
    u <- unravel_address (base_addr net) (subnet_mask net) ;;
    last <- last_addr_of_subnet net ;;
    ul <- unravel_address last (subnet_mask net) ;;
    Ret {| it_is_empty := false;
           unraveled_addr := u;
           last_unraveled_addr := ul;
           it_subnet_mask := subnet_mask net |}.

  (** enumerate.rs:31-48: returns the item and the new state. *)
  Definition iter_next (it : network_iter A) : res (option A * network_iter A) :=
    if it_is_empty it then Ret (None, it)
    else if agtb (unraveled_addr it) (last_unraveled_addr it) then Ret (None, it)
    else
      woven_addr <- weave_address (unraveled_addr it) (it_subnet_mask it) ;;
      o <- add_offset (unraveled_addr it) 1 ;;
      let it' :=
        match o with
        | Some next_addr =>
            {| it_is_empty := it_is_empty it;
               unraveled_addr := next_addr;
               last_unraveled_addr := last_unraveled_addr it;
               it_subnet_mask := it_subnet_mask it |}
        | None =>
            {| it_is_empty := true;
               unraveled_addr := unraveled_addr it;
               last_unraveled_addr := last_unraveled_addr it;
               it_subnet_mask := it_subnet_mask it |}
        end in
      Ret (Some woven_addr, it').

  (** What the for loop over the iterator sees (enumerate.rs:67-69, 73-75; the
      loop that prints is [print_addrs] in Main.v): the items up to the first
      [None]. *)
  Definition enumerate_step (st : network_iter A * list A)
    : res ((network_iter A * list A) + list A) :=
    let '(it, acc) := st in
    ' (o, it') <- iter_next it ;;
    match o with
    | Some a => Ret (inl (it', a :: acc))
    | None => Ret (inr (rev acc))
    end.
  Definition enumerate_net (net : network A) : res (list A) :=
    it <- iter_new net ;;
    while enumerate_step (it, []).
End Generic.
