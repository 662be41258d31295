(** * Main: model of /repo/src/main.rs and of the command entry points in
    /repo/src/cmds/{derange,minimize,split,resize,enumerate}.rs.

    [args] is std::env::args(), including the program name. The exit status is
    the Z returned. *)
From Verif Require Export RustBase Addr Cidr BitManip Net Regex Parse Console ShowNet.
From Verif Require Export Derange Minimize Split Resize Enumerate.

Section WithTerminal.
  Context `{Rust} `{Terminal}.

  (** main.rs:30-45. *)
  Definition usage : io unit := eprintln MsgUsage.

  (** Printing a list with one [println!] each. *)
  Definition print_nets {A : Type} `{IpAddress A} (l : list (network A)) : io unit :=
    io_for l (fun n => println (net_display n)).

  (** derange.rs:9-51. *)
  Definition derange (args : list str) : io Z :=
    match args with
    | [_; _; a2; a3] =>
        one <-- io_lift (parse_addr a2) ;;
        match one with
        | RErr e => eprintln (MsgFirstAddr e) ;;; io_ret 1%Z
        | ROk one =>
            other <-- io_lift (parse_addr a3) ;;
            match other with
            | RErr e => eprintln (MsgSecondAddr e) ;;; io_ret 1%Z
            | ROk other =>
                if negb (version one =? version other) then
                  eprintln MsgVersions ;;; io_ret 1%Z
                else
                  (match one, other with
                   | PAddr4 one_addr, PAddr4 other_addr =>
                       subnets <-- io_lift (range_to_subnets one_addr other_addr) ;;
                       print_nets subnets
                   | PAddr6 one_addr, PAddr6 other_addr =>
                       subnets <-- io_lift (range_to_subnets one_addr other_addr) ;;
                       print_nets subnets
                   | _, _ => io_ret tt
                   end) ;;;
                  io_ret 0%Z
            end
        end
    | _ => usage ;;; io_ret 1%Z
    end.

  (** minimize.rs:9-49. *)
  Definition minimize (args : list str) : io Z :=
    if Nat.ltb (List.length args) 3 then usage ;;; io_ret 1%Z
    else
      r <-- io_lift (parse_same_family_netspecs (skipn 2 args)) ;;
      match r with
      | ROk SpecsNothing => io_ret 0%Z
      | ROk SpecsMixed => eprintln MsgMixing ;;; io_ret 1%Z
      | ROk (Specs4 l) =>
          minimized <-- io_lift (minimize_subnets (map snd l)) ;;
          print_nets minimized ;;; io_ret 0%Z
      | ROk (Specs6 l) =>
          minimized <-- io_lift (minimize_subnets (map snd l)) ;;
          print_nets minimized ;;; io_ret 0%Z
      | RErr e => eprintln (MsgParsing e) ;;; io_ret 1%Z
      end.

  (** Iterator::max on addresses: None when empty. *)
  Definition max_addr {A : Type} `{IpAddress A} (l : list A) : option A :=
    match l with
    | [] => None
    | x :: l' => Some (fold_left amax l' x)
    end.

  Fixpoint map_res {T U : Type} (f : T -> res U) (l : list T) : res (list U) :=
    match l with
    | [] => Ret []
    | x :: l' => y <- f x ;; ys <- map_res f l' ;; Ret (y :: ys)
    end.

  (** split.rs:52-87. *)
  Definition output_split {A : Type} `{IpAddress A} (subnet : network A) (host_counts : list Z)
             (output_network : network A -> option A -> io unit) : io Z :=
    println (lit "Subnet to split:") ;;;
    output_network subnet None ;;;
    println [] ;;;
    s <-- io_lift (split_subnet subnet host_counts) ;;
    match s with
    | None => println (lit "Not enough addresses available for this split.") ;;; io_ret 1%Z
    | Some split_subnets =>
        io_for (combine host_counts split_subnets) (fun '(host_count, splitnet) =>
          println (lit "Subnet for " ++ fmt_Z host_count ++ lit " hosts:") ;;;
          output_network splitnet None ;;;
          println []) ;;;
        lasts <-- io_lift (map_res last_addr_of_subnet split_subnets) ;;
        max_used_address <-- io_lift (unwrap (max_addr lasts)) ;;
        (if negb (contains subnet max_used_address) then
           println (lit "Network is too small")
         else
           o <-- io_lift (add_offset max_used_address 1) ;;
           match o with
           | None => io_ret tt
           | Some next_unused_address =>
               println (lit "Unused networks:") ;;;
               last_address <-- io_lift (last_addr_of_subnet subnet) ;;
               unused_subnets <-- io_lift (range_to_subnets next_unused_address last_address) ;;
               print_nets unused_subnets
           end) ;;;
        io_ret 0%Z
    end.

  (** split.rs:23-36: the loop over the host counts. *)
  Fixpoint parse_host_counts (l : list str) (acc : list Z) : result (list Z) errmsg :=
    match l with
    | [] => ROk acc
    | s :: l' =>
        match parse_bigint s with
        | RErr e => RErr (MsgHostCount s e)
        | ROk c => if (c <? 0)%Z then RErr MsgHostCountNegative
                    else parse_host_counts l' (acc ++ [c])
        end
    end.

  (** split.rs:13-50. *)
  Definition split (args : list str) : io Z :=
    match args with
    | _ :: _ :: a2 :: ((_ :: _) as counts) =>
        match parse_host_counts counts [] with
        | RErr m => eprintln m ;;; io_ret 1%Z
        | ROk host_counts =>
            r <-- io_lift (parse_netspec a2) ;;
            match r with
            | RErr e => eprintln (MsgSplitNetspec a2 e) ;;; io_ret 1%Z
            | ROk (Spec4 _ net) => output_split net host_counts output_ipv4_network
            | ROk (Spec6 _ net) => output_split net host_counts output_ipv6_network
            end
        end
    | _ => usage ;;; io_ret 1%Z
    end.

  (** resize.rs:97-101: the loop over the resulting subnets. *)
  Fixpoint output_subnets {A : Type} (i : N) (l : list (network A))
           (output_network : network A -> option A -> io unit) : io unit :=
    match l with
    | [] => io_ret tt
    | n :: l' =>
        println (lit "Subnet " ++ fmt_dec (i + 1) ++ lit ":") ;;;
        output_network n None ;;;
        println [] ;;;
        output_subnets (i + 1) l' output_network
    end.

  (** resize.rs:78-104. *)
  Definition resize_and_output {A : Type} `{IpAddress A} (initial_net : network A)
             (new_subnet_mask : A) (output_network : network A -> option A -> io unit) : io unit :=
    r <-- io_lift (resize_network initial_net new_subnet_mask) ;;
    let '(resized, net_ordering) := r in
    println (lit "Original network:") ;;;
    output_network initial_net None ;;;
    println [] ;;;
    match net_ordering with
    | Lt =>
        println (lit "Supernet:") ;;;
        n <-- io_lift (index resized 0) ;;
        output_network n None ;;;
        println []
    | Eq =>
        println (lit "Same-sized net:") ;;;
        n <-- io_lift (index resized 0) ;;
        output_network n None ;;;
        println []
    | Gt => output_subnets 0 resized output_network
    end.

  (** resize.rs:13-76. *)
  Definition resize (args : list str) : io Z :=
    match args with
    | [_; _; a2; a3] =>
        r <-- io_lift (parse_netspec a2) ;;
        match r with
        | RErr e => eprintln (MsgNetspec a2 e) ;;; io_ret 1%Z
        | ROk (Spec4 _ net) =>
            s <-- io_lift (parse_subnet a3) ;;
            match s with
            | RErr e => eprintln (MsgSubnet a3 e) ;;; io_ret 1%Z
            | ROk (PSCidr cidr) =>
                if 32 <? cidr then eprintln (MsgCidrMax cidr 32) ;;; io_ret 1%Z
                else
                  m <-- io_lift (unwrap (v4_from_bytes (subnet_mask_bytes_from_prefix cidr 4))) ;;
                  resize_and_output net m output_ipv4_network ;;; io_ret 0%Z
            | ROk (PSMask4 m) => resize_and_output net m output_ipv4_network ;;; io_ret 0%Z
            | ROk (PSMask6 _) => eprintln MsgMask6ForNet4 ;;; io_ret 1%Z
            end
        | ROk (Spec6 _ net) =>
            s <-- io_lift (parse_subnet a3) ;;
            match s with
            | RErr e => eprintln (MsgSubnet a3 e) ;;; io_ret 1%Z
            | ROk (PSCidr cidr) =>
                if 128 <? cidr then eprintln (MsgCidrMax cidr 128) ;;; io_ret 1%Z
                else
                  m <-- io_lift (unwrap (v6_from_bytes (subnet_mask_bytes_from_prefix cidr 16))) ;;
                  resize_and_output net m output_ipv6_network ;;; io_ret 0%Z
            | ROk (PSMask6 m) => resize_and_output net m output_ipv6_network ;;; io_ret 0%Z
            | ROk (PSMask4 _) => eprintln MsgMask4ForNet6 ;;; io_ret 1%Z
            end
        end
    | _ => usage ;;; io_ret 1%Z
    end.

  (** enumerate.rs:67-69, 73-75: the for loop over the iterator. *)
  Definition print_addrs_step {A : Type} `{IpAddress A} (it : network_iter A)
    : io (network_iter A + unit) :=
    n <-- io_lift (iter_next it) ;;
    match fst n with
    | Some addr => println (display addr) ;;; io_ret (inl (snd n))
    | None => io_ret (inr tt)
    end.
  (** enumerate.rs:65-70, 71-76: one network. *)
  Definition print_addrs {A : Type} `{IpAddress A} (net : network A) : io unit :=
    iterator <-- io_lift (iter_new net) ;;
    io_while print_addrs_step iterator.

  (** enumerate.rs:59-78: the loop over the arguments. *)
  Fixpoint enumerate_loop (l : list str) (ret : Z) : io Z :=
    match l with
    | [] => io_ret ret
    | net_str :: l' =>
        r <-- io_lift (parse_netspec net_str) ;;
        match r with
        | RErr e => eprintln (MsgNetwork net_str e) ;;; enumerate_loop l' 1%Z
        | ROk (Spec4 _ net) => print_addrs net ;;; enumerate_loop l' ret
        | ROk (Spec6 _ net) => print_addrs net ;;; enumerate_loop l' ret
        end
    end.

  (** enumerate.rs:51-81. *)
  Definition enumerate (args : list str) : io Z :=
    if Nat.ltb (List.length args) 3 then usage ;;; io_ret 1%Z
    else enumerate_loop (skipn 2 args) 0%Z.

  (** main.rs:11-28. *)
  Definition color_test : io unit :=
    write_in_color (lit "Black") (Some Black) 20 ;;;
    write_in_color (lit "DarkBlue") (Some DarkBlue) 20 ;;;
    write_in_color (lit "DarkGreen") (Some DarkGreen) 20 ;;;
    write_in_color (lit "DarkCyan") (Some DarkCyan) 20 ;;;
    write_in_color (lit "DarkRed") (Some DarkRed) 20 ;;;
    write_in_color (lit "DarkMagenta") (Some DarkMagenta) 20 ;;;
    write_in_color (lit "DarkYellow") (Some DarkYellow) 20 ;;;
    write_in_color (lit "Gray") (Some Gray) 20 ;;;
    write_in_color (lit "DarkGray") (Some DarkGray) 20 ;;;
    write_in_color (lit "Blue") (Some Blue) 20 ;;;
    write_in_color (lit "Green") (Some Green) 20 ;;;
    write_in_color (lit "Cyan") (Some Cyan) 20 ;;;
    write_in_color (lit "Red") (Some Red) 20 ;;;
    write_in_color (lit "Magenta") (Some Magenta) 20 ;;;
    write_in_color (lit "Yellow") (Some Yellow) 20 ;;;
    write_in_color (lit "White") (Some White) 20.

  (** main.rs:47-74; the result is the exit status (main.rs:76-78). *)
  Definition do_main (args : list str) : io Z :=
    match args with
    | _ :: a1 :: _ =>
        if str_eqb a1 (lit "-m") || str_eqb a1 (lit "--minimize") then minimize args
        else if str_eqb a1 (lit "-d") || str_eqb a1 (lit "--derange") then derange args
        else if str_eqb a1 (lit "-s") || str_eqb a1 (lit "--split") then split args
        else if str_eqb a1 (lit "-r") || str_eqb a1 (lit "--resize") then resize args
        else if str_eqb a1 (lit "-e") || str_eqb a1 (lit "--enumerate") then enumerate args
        else if str_eqb a1 (lit "--color-test") then color_test ;;; io_ret 0%Z
        else if str_eqb a1 (lit "--help") then usage ;;; io_ret 0%Z
        else show_net args
    | _ => usage ;;; io_ret 1%Z
    end.
End WithTerminal.
