(** * Resize: model of /repo/src/cmds/resize.rs (resize_network) *)
From Verif Require Export RustBase Addr Cidr BitManip Net.

Section Generic.
  Context `{Rust} {A : Type} `{IpAddress A}.

  (** resize.rs:141-153: one iteration of the while loop; the state is
      (current_unraveled_base_addr, nets). *)
  Definition resize_step (new_subnet_mask unraveled_last_addr : A)
             (st : A * list (network A))
    : res ((A * list (network A)) + list (network A)) :=
    let '(current, nets) := st in
    if aleb current unraveled_last_addr then
      woven_new_base_addr <- weave_address current new_subnet_mask ;;
      let new_net := new_with_mask woven_new_base_addr new_subnet_mask in
      let nets := nets ++ [new_net] in
      next <- next_subnet_base_addr new_net ;;
      match next with
      | Some nsba =>
          unraveled_nsba <- unravel_address nsba (subnet_mask new_net) ;;
          Ret (inl (unraveled_nsba, nets))
      | None => Ret (inr nets)
      end
    else Ret (inr nets).

  (** resize.rs:108-156. [Lt], [Eq], [Gt] are Ordering::{Less,Equal,Greater}. *)
  Definition resize_network (initial_net : network A) (new_subnet_mask : A)
    : res (list (network A) * comparison) :=
    let initial_host_bits := count_zeros (subnet_mask initial_net) in
    let new_net_bits := count_ones new_subnet_mask in
    let new_host_bits := count_zeros new_subnet_mask in
    if initial_host_bits <? new_host_bits then
      u <- unravel_address (base_addr initial_net) (subnet_mask initial_net) ;;
      unraveled_shortened_net <- new_with_prefix u new_net_bits ;;
      woven_new_base_addr <- weave_address (base_addr unraveled_shortened_net) new_subnet_mask ;;
      Ret ([new_with_mask woven_new_base_addr new_subnet_mask], Lt)
    else if new_host_bits =? initial_host_bits then
      u <- unravel_address (base_addr initial_net) (subnet_mask initial_net) ;;
      woven_new_base_addr <- weave_address u new_subnet_mask ;;
      Ret ([new_with_mask woven_new_base_addr new_subnet_mask], Eq)
    else
      unraveled_base_addr <- unravel_address (base_addr initial_net) (subnet_mask initial_net) ;;
      last_addr <- last_addr_of_subnet initial_net ;;
      unraveled_last_addr <- unravel_address last_addr (subnet_mask initial_net) ;;
      nets <- while (resize_step new_subnet_mask unraveled_last_addr) (unraveled_base_addr, []) ;;
      Ret (nets, Gt).
End Generic.
