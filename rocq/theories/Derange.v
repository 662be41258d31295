(** * Derange: model of /repo/src/cmds/derange.rs (range_to_subnets) *)
From Verif Require Export RustBase Addr Cidr BitManip Net.

Section Generic.
  Context `{Rust} {A : Type} `{IpAddress A}.

  (** derange.rs:67-79: one iteration of the while loop. The state is
      (first_addr, current_subnet, ret); [ret] is kept in order. *)
  Definition derange_step (last_addr : A) (st : A * network A * list (network A))
    : res ((A * network A * list (network A)) + list (network A)) :=
    let '(first_addr, current_subnet, ret) := st in
    if aleb first_addr last_addr then
      p <- unwrap (cidr_prefix current_subnet) ;;
      p <- usize_sub p 1 ;;
      larger_subnet <- new_with_prefix first_addr p ;;
      beyond <- (if negb (aeqb (base_addr larger_subnet) first_addr) then Ret true
                 else l <- last_addr_of_subnet larger_subnet ;; Ret (agtb l last_addr)) ;;
      if beyond : bool then
        next <- next_subnet_base_addr current_subnet ;;
        first_addr <- unwrap next ;;
        new_subnet <- new_with_prefix first_addr (N.of_nat (byte_count last_addr * 8)) ;;
        Ret (inl (first_addr, new_subnet, ret ++ [current_subnet]))
      else Ret (inl (first_addr, larger_subnet, ret))
    else Ret (inr ret).

  (** derange.rs:56-82 [range_to_subnets]. *)
  Definition range_to_subnets (end_one end_two : A) : res (list (network A)) :=
    let first_addr := amin end_one end_two in
    let last_addr := amax end_one end_two in
    current_subnet <- new_with_prefix first_addr (N.of_nat (byte_count last_addr * 8)) ;;
    while (derange_step last_addr) (first_addr, current_subnet, []).
End Generic.
