(** * Minimize: model of /repo/src/cmds/minimize.rs (minimize_subnets) *)
From Verif Require Export RustBase Addr Cidr BitManip Net.

Section Generic.
  Context `{Rust} {A : Type} `{IpAddress A}.

  (** std::collections::HashSet<IpNetwork<A>>: a duplicate-free list;
      iteration order is [hash_iter]. *)
  Definition set_mem (x : network A) (s : list (network A)) : bool := existsb (net_eqb x) s.
  Definition set_insert (x : network A) (s : list (network A)) : list (network A) :=
    if set_mem x s then s else s ++ [x].
  Definition set_remove (x : network A) (s : list (network A)) : list (network A) :=
    filter (fun y => negb (net_eqb x y)) s.

  (** minimize.rs:57, 80, 134: the sort key (base_addr, subnet_mask). *)
  Definition key_cmp (a b : network A) : comparison :=
    match acmp (base_addr a) (base_addr b) with
    | Eq => acmp (subnet_mask a) (subnet_mask b)
    | c => c
    end.
  Definition sort_nets (l : list (network A)) : list (network A) := sort_by key_cmp l.

  (** minimize.rs:63-70: for each i, for each later j. *)
  Fixpoint eliminate (subnets filtered : list (network A)) : list (network A) :=
    match subnets with
    | [] => filtered
    | ni :: rest =>
        eliminate rest
          (fold_left
             (fun f nj => if is_superset_of ni nj && negb (net_eqb ni nj)
                          then set_remove nj f else f)
             rest filtered)
    end.

  (** minimize.rs:83-123: the inner loop over j; result: the partner and the
      merged network. When there is no next network base (line 89 fails to
      match) the code falls through to line 96. *)
  Fixpoint merge_j (ni : network A) (rest : list (network A))
    : res (option (network A * network A)) :=
    match rest with
    | [] => Ret None
    | nj :: rest' =>
        if negb (aeqb (subnet_mask ni) (subnet_mask nj)) then merge_j ni rest'
        else
          next <- next_subnet_base_addr ni ;;
          if match next with
             | Some last_ip_plus_one => negb (aeqb last_ip_plus_one (base_addr nj))
             | None => false
             end
          then merge_j ni rest'
          else
            let differ_bit_address := bxor (base_addr ni) (base_addr nj) in
            if 1 <? count_ones differ_bit_address then merge_j ni rest'
            else
              let new_subnet_mask := band (subnet_mask ni) (bitwise_negate differ_bit_address) in
              let new_subnet := new_with_mask (base_addr ni) new_subnet_mask in
              _ <- rassert (is_superset_of new_subnet ni) ;;
              _ <- rassert (is_superset_of new_subnet nj) ;;
              Ret (Some (nj, new_subnet))
    end.

  (** minimize.rs:82-128: the outer loop over i; result: the first mergeable
      pair and the merged network. *)
  Fixpoint merge_i (subnets : list (network A))
    : res (option (network A * network A * network A)) :=
    match subnets with
    | [] => Ret None
    | ni :: rest =>
        r <- merge_j ni rest ;;
        match r with
        | Some (nj, new_subnet) => Ret (Some (ni, nj, new_subnet))
        | None => merge_i rest
        end
    end.

  (** minimize.rs:74-129: one iteration of the while loop; the state is
      filtered_subnets. *)
  Definition merge_step (filtered : list (network A))
    : res (list (network A) + list (network A)) :=
    let subnets := sort_nets (hash_iter filtered) in
    r <- merge_i subnets ;;
    match r with
    | Some (ni, nj, new_subnet) =>
        Ret (inl (set_insert new_subnet (set_remove nj (set_remove ni filtered))))
    | None => Ret (inr filtered)
    end.

  (** minimize.rs:54-136. *)
  Definition minimize_subnets (subnets : list (network A)) : res (list (network A)) :=
    let subnets := sort_nets subnets in
    let filtered := fold_left (fun s n => set_insert n s) subnets [] in
    let filtered := eliminate subnets filtered in
    filtered <- while merge_step filtered ;;
    Ret (sort_nets (hash_iter filtered)).
End Generic.
