(** * Split: model of /repo/src/cmds/split.rs (split_subnet) and of the parsing
    of host counts (BigInt::from_str of num-bigint 0.4). *)
From Verif Require Export RustBase Addr Cidr BitManip Net.

(** num-bigint: BigUint::from_str_radix(s, 10): an optional '+' (unless followed
    by another '+'), then digits and underscores, not starting with an
    underscore; empty is an error of its own. *)
Fixpoint big_digits (acc : N) (s : str) : result N int_error :=
  match s with
  | [] => ROk acc
  | c :: s' =>
      if Ascii.eqb c "_" then big_digits acc s'
      else match to_digit 10 c with
           | Some d => big_digits (acc * 10 + d) s'
           | None => RErr IE_InvalidDigit
           end
  end.
Definition parse_biguint (s : str) : result N int_error :=
  let s := match s with
           | c :: s' => if Ascii.eqb c "+" && negb (starts_with_char "+" s') then s' else s
           | [] => s
           end in
  match s with
  | [] => RErr IE_Empty
  | c :: _ => if Ascii.eqb c "_" then RErr IE_InvalidDigit else big_digits 0 s
  end.

(** num-bigint: BigInt::from_str_radix(s, 10): a leading '-' negates; if it is
    followed by '+' the string is kept and fails as a BigUint. *)
Definition parse_bigint (s : str) : result Z int_error :=
  match s with
  | c :: s' =>
      if Ascii.eqb c "-" then
        rbind (parse_biguint (if starts_with_char "+" s' then s else s'))
              (fun n => ROk (- Z.of_N n)%Z)
      else rbind (parse_biguint s) (fun n => ROk (Z.of_N n))
  | [] => RErr IE_Empty
  end.

Section Generic.
  Context `{Rust} {A : Type} `{IpAddress A}.

  (** split.rs:96-99: descending by host count. *)
  Definition desc_cmp (a b : nat * Z) : comparison := Z.compare (snd b) (snd a).

  (** split.rs:105-111: the growing loop. *)
  Definition grow_step (host_count_wanted : Z) (current_net : network A)
    : res (network A + network A) :=
    if (host_count current_net <? host_count_wanted)%Z then
      p <- unwrap (cidr_prefix current_net) ;;
      if p =? 0 then Ret (inr current_net)
      else
        p <- usize_sub p 1 ;;
        n <- new_with_prefix (base_addr current_net) p ;;
        Ret (inl n)
    else Ret (inr current_net).

  (** std::collections::HashMap::insert: replaces an existing entry. *)
  Definition map_insert (k : nat) (v : network A) (m : list (nat * network A))
    : list (nat * network A) :=
    filter (fun e => negb (Nat.eqb (fst e) k)) m ++ [(k, v)].

  (** split.rs:104-125: the loop over the sorted requests. *)
  Fixpoint split_loop (reqs : list (nat * Z)) (current_net : network A)
           (index_to_subnet : list (nat * network A))
    : res (option (list (nat * network A))) :=
    match reqs with
    | [] => Ret (Some index_to_subnet)
    | (i, host_count) :: reqs' =>
        current_net <- while (grow_step host_count) current_net ;;
        p <- unwrap (cidr_prefix current_net) ;;
        if p =? 0 then Ret None
        else
          let index_to_subnet := map_insert i current_net index_to_subnet in
          next <- next_subnet_base_addr current_net ;;
          match next with
          | None => Ret None
          | Some next_subnet_base_addr =>
              current_net <- new_with_prefix next_subnet_base_addr
                               (N.of_nat (byte_count (subnet_mask current_net) * 8)) ;;
              split_loop reqs' current_net index_to_subnet
          end
    end.

  (** split.rs:130: ascending by index. *)
  Definition index_cmp (a b : nat * network A) : comparison := Nat.compare (fst a) (fst b).

  (** split.rs:90-136. *)
  Definition split_subnet (subnet : network A) (host_counts : list Z)
    : res (option (list (network A))) :=
    let indexes_and_host_counts :=
      sort_by desc_cmp (combine (seq 0 (List.length host_counts)) host_counts) in
    current_net <- new_with_prefix (base_addr subnet)
                     (N.of_nat (byte_count (subnet_mask subnet) * 8)) ;;
    r <- split_loop indexes_and_host_counts current_net [] ;;
    match r with
    | None => Ret None
    | Some index_to_subnet =>
        let ordered_subnets := sort_by index_cmp (hash_iter index_to_subnet) in
        Ret (Some (map snd ordered_subnets))
    end.
End Generic.
