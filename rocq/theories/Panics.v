(** * Panics: the places at which the program panics

    [res] tells that a computation panics, not where. Here are the functions that can
    panic once more, with the places; Pf_Panic.v proves that without the places they are
    the functions of Derange.v, Main.v and Process.v. *)
From Verif Require Export Process.

(** Where the program panics, and what it says then:
    - main.rs:48, in [std::env::args]: "called `Result::unwrap()` on an `Err` value: ...",
      when an argument is not UTF-8;
    - derange.rs:69, the subtraction: "attempt to subtract with overflow";
    - derange.rs:73, the unwrap: "called `Option::unwrap()` on a `None` value";
    - anywhere else. *)
Inductive place := InArgs | AtPrefix | AtNext | Elsewhere.

Inductive tried (T : Type) := Fine (x : T) | Panicked (p : place) | Endless.
Arguments Fine {T}. Arguments Panicked {T}. Arguments Endless {T}.

Definition tried_bind {T U : Type} (m : tried T) (f : T -> tried U) : tried U :=
  match m with Fine x => f x | Panicked p => Panicked p | Endless => Endless end.
(** A computation all of whose panics are at [p]. *)
Definition at_place {T : Type} (p : place) (r : res T) : tried T :=
  match r with Ret x => Fine x | Panic => Panicked p | Diverge => Endless end.
Notation "x <~ e ;; k" := (tried_bind e (fun x => k)) (at level 61, e at next level, right associativity).

(** [loop] and [while] of RustBase.v. *)
Fixpoint tried_loop {S R : Type} (step : S -> tried (S + R)) (k : nat) (s : S) : tried (S + R) :=
  match k with
  | O => step s
  | Datatypes.S k' =>
      o <~ tried_loop step k' s ;;
      match o with
      | inl s' => tried_loop step k' s'
      | inr r => Fine (inr r)
      end
  end.
Definition tried_while {S R : Type} (step : S -> tried (S + R)) (s : S) : tried R :=
  o <~ tried_loop step fuel_doublings s ;;
  match o with inl _ => Endless | inr r => Fine r end.

Section Derange.
  Context `{Rust} {A : Type} `{IpAddress A}.

  (** derange.rs:67-79. *)
  Definition tried_step (last_addr : A) (st : A * network A * list (network A))
    : tried ((A * network A * list (network A)) + list (network A)) :=
    let '(first_addr, current_subnet, ret) := st in
    if aleb first_addr last_addr then
      p <~ at_place Elsewhere (unwrap (cidr_prefix current_subnet)) ;;
      p <~ at_place AtPrefix (usize_sub p 1) ;;
      larger_subnet <~ at_place Elsewhere (new_with_prefix first_addr p) ;;
      beyond <~ (if negb (aeqb (base_addr larger_subnet) first_addr) then Fine true
                 else l <~ at_place Elsewhere (last_addr_of_subnet larger_subnet) ;; Fine (agtb l last_addr)) ;;
      if beyond : bool then
        next <~ at_place Elsewhere (next_subnet_base_addr current_subnet) ;;
        first_addr <~ at_place AtNext (unwrap next) ;;
        new_subnet <~ at_place Elsewhere (new_with_prefix first_addr (N.of_nat (byte_count last_addr * 8))) ;;
        Fine (inl (first_addr, new_subnet, ret ++ [current_subnet]))
      else Fine (inl (first_addr, larger_subnet, ret))
    else Fine (inr ret).

  (** derange.rs:56-82. *)
  Definition tried_range (end_one end_two : A) : tried (list (network A)) :=
    let first_addr := amin end_one end_two in
    let last_addr := amax end_one end_two in
    current_subnet <~ at_place Elsewhere (new_with_prefix first_addr (N.of_nat (byte_count last_addr * 8))) ;;
    tried_while (tried_step last_addr) (first_addr, current_subnet, []).
End Derange.

(** Computations that print ([io] of Console.v). *)
Definition trial (T : Type) : Type := list event * tried T.
Definition trial_ret {T : Type} (x : T) : trial T := ([], Fine x).
Definition trial_bind {T U : Type} (m : trial T) (f : T -> trial U) : trial U :=
  match snd m with
  | Fine x => let k := f x in (fst m ++ fst k, snd k)
  | Panicked p => (fst m, Panicked p)
  | Endless => (fst m, Endless)
  end.
Notation "x <~~ e ;; k" := (trial_bind e (fun x => k)) (at level 61, e at next level, right associativity).
Notation "e ~~ k" := (trial_bind e (fun _ => k)) (at level 61, right associativity).
(** What panics only elsewhere, printing or not. *)
Definition io_elsewhere {T : Type} (m : io T) : trial T := (fst m, at_place Elsewhere (snd m)).
Definition elsewhere {T : Type} (r : res T) : trial T := ([], at_place Elsewhere r).
Definition trial_lift {T : Type} (r : tried T) : trial T := ([], r).

Section WithTerminal.
  Context `{Rust} `{Terminal}.

  (** derange.rs:9-51. *)
  Definition tried_derange (args : list str) : trial Z :=
    match args with
    | [_; _; a2; a3] =>
        one <~~ elsewhere (parse_addr a2) ;;
        match one with
        | RErr e => io_elsewhere (eprintln (MsgFirstAddr e)) ~~ trial_ret 1%Z
        | ROk one =>
            other <~~ elsewhere (parse_addr a3) ;;
            match other with
            | RErr e => io_elsewhere (eprintln (MsgSecondAddr e)) ~~ trial_ret 1%Z
            | ROk other =>
                if negb (version one =? version other) then
                  io_elsewhere (eprintln MsgVersions) ~~ trial_ret 1%Z
                else
                  (match one, other with
                   | PAddr4 one_addr, PAddr4 other_addr =>
                       subnets <~~ trial_lift (tried_range one_addr other_addr) ;;
                       io_elsewhere (print_nets subnets)
                   | PAddr6 one_addr, PAddr6 other_addr =>
                       subnets <~~ trial_lift (tried_range one_addr other_addr) ;;
                       io_elsewhere (print_nets subnets)
                   | _, _ => trial_ret tt
                   end) ~~
                  trial_ret 0%Z
            end
        end
    | _ => io_elsewhere usage ~~ trial_ret 1%Z
    end.

  (** split.rs:52-87. *)
  Definition tried_output_split {A : Type} `{IpAddress A} (subnet : network A) (host_counts : list Z)
             (output_network : network A -> option A -> io unit) : trial Z :=
    io_elsewhere (println (lit "Subnet to split:")) ~~
    io_elsewhere (output_network subnet None) ~~
    io_elsewhere (println []) ~~
    s <~~ elsewhere (split_subnet subnet host_counts) ;;
    match s with
    | None => io_elsewhere (println (lit "Not enough addresses available for this split.")) ~~ trial_ret 1%Z
    | Some split_subnets =>
        io_elsewhere (io_for (combine host_counts split_subnets) (fun '(host_count, splitnet) =>
          println (lit "Subnet for " ++ fmt_Z host_count ++ lit " hosts:") ;;;
          output_network splitnet None ;;;
          println [])) ~~
        lasts <~~ elsewhere (map_res last_addr_of_subnet split_subnets) ;;
        max_used_address <~~ elsewhere (unwrap (max_addr lasts)) ;;
        (if negb (contains subnet max_used_address) then
           io_elsewhere (println (lit "Network is too small"))
         else
           o <~~ elsewhere (add_offset max_used_address 1) ;;
           match o with
           | None => trial_ret tt
           | Some next_unused_address =>
               io_elsewhere (println (lit "Unused networks:")) ~~
               last_address <~~ elsewhere (last_addr_of_subnet subnet) ;;
               unused_subnets <~~ trial_lift (tried_range next_unused_address last_address) ;;
               io_elsewhere (print_nets unused_subnets)
           end) ~~
        trial_ret 0%Z
    end.

  (** split.rs:13-50. *)
  Definition tried_split (args : list str) : trial Z :=
    match args with
    | _ :: _ :: a2 :: ((_ :: _) as counts) =>
        match parse_host_counts counts [] with
        | RErr m => io_elsewhere (eprintln m) ~~ trial_ret 1%Z
        | ROk host_counts =>
            r <~~ elsewhere (parse_netspec a2) ;;
            match r with
            | RErr e => io_elsewhere (eprintln (MsgSplitNetspec a2 e)) ~~ trial_ret 1%Z
            | ROk (Spec4 _ net) => tried_output_split net host_counts output_ipv4_network
            | ROk (Spec6 _ net) => tried_output_split net host_counts output_ipv6_network
            end
        end
    | _ => io_elsewhere usage ~~ trial_ret 1%Z
    end.

  (** main.rs:47-74. *)
  Definition tried_do_main (args : list str) : trial Z :=
    match args with
    | _ :: a1 :: _ =>
        if str_eqb a1 (lit "-m") || str_eqb a1 (lit "--minimize") then io_elsewhere (minimize args)
        else if str_eqb a1 (lit "-d") || str_eqb a1 (lit "--derange") then tried_derange args
        else if str_eqb a1 (lit "-s") || str_eqb a1 (lit "--split") then tried_split args
        else if str_eqb a1 (lit "-r") || str_eqb a1 (lit "--resize") then io_elsewhere (resize args)
        else if str_eqb a1 (lit "-e") || str_eqb a1 (lit "--enumerate") then io_elsewhere (enumerate args)
        else if str_eqb a1 (lit "--color-test") then io_elsewhere color_test ~~ trial_ret 0%Z
        else if str_eqb a1 (lit "--help") then io_elsewhere usage ~~ trial_ret 0%Z
        else io_elsewhere (show_net args)
    | _ => io_elsewhere usage ~~ trial_ret 1%Z
    end.
End WithTerminal.

(** How the process ends, with the place of the panic: [main] of Process.v. *)
Definition tried_main {R : Rust} {T : Terminal} (args : list str) : tried Z :=
  if forallb is_utf8 args then snd (tried_do_main args) else Panicked InArgs.
