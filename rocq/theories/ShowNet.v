(** * ShowNet: model of /repo/src/cmds/show_net.rs *)
From Verif Require Export RustBase Addr Cidr BitManip Net Regex Parse Console.

(** show_net.rs:13-19. *)
Definition LABEL_COLOR : color := White.
Definition IP_ADDRESS_COLOR : color := Blue.
Definition HOST_BITS_COLOR : color := Yellow.
Definition NET_BITS_COLOR : color := Green.
Definition MASK_BITS_COLOR : color := Red.
Definition CLASS_BITS_COLOR : color := Magenta.
Definition ADDR_SEP_COLOR : color := White.

Definition is_char (c : ascii) (s : str) (i : nat) : bool :=
  match nth_error s i with Some x => Ascii.eqb x c | None => false end.

Section WithTerminal.
  Context `{Rust} `{Terminal}.

  (** show_net.rs:127-141. *)
  Definition output_ipv4_class (top_bits top_mask_bits : str) : io unit :=
    if starts_with (lit "0") top_bits && starts_with (lit "1") top_mask_bits then
      write_in_color (lit "Class A") (Some CLASS_BITS_COLOR) 0
    else if starts_with (lit "10") top_bits && starts_with (lit "11") top_mask_bits then
      write_in_color (lit "Class B") (Some CLASS_BITS_COLOR) 0
    else if starts_with (lit "110") top_bits && starts_with (lit "111") top_mask_bits then
      write_in_color (lit "Class C") (Some CLASS_BITS_COLOR) 0
    else if starts_with (lit "1111") top_mask_bits then
      if starts_with (lit "1110") top_bits then
        write_in_color (lit "Class D (multicast)") (Some CLASS_BITS_COLOR) 0
      else if starts_with (lit "1111") top_bits then
        write_in_color (lit "Class E (reserved)") (Some CLASS_BITS_COLOR) 0
      else io_ret tt
    else io_ret tt.

  (** show_net.rs:169-186: is colouring of class bits kept on? [bits] and
      [mask_bits] have 8 characters, so the indexing does not panic. *)
  Definition v4_color_class (color_class : bool) (bits mask_bits : str) : bool :=
    if color_class then
      if is_char "0" mask_bits 0 then false
      else if is_char "1" bits 0 && is_char "0" mask_bits 1 then false
      else if is_char "1" bits 1 && is_char "0" mask_bits 2 then false
      else if is_char "1" bits 2 && is_char "0" mask_bits 3 then false
      else true
    else false.

  (** show_net.rs:188-219: the loop over the 8 bits of byte [i]. *)
  Definition v4_bit_color (i : nat) (color_class : bool) (bits mask_bits : str) (bit : nat) : color :=
    let color := if is_char "1" mask_bits bit then NET_BITS_COLOR else HOST_BITS_COLOR in
    if Nat.eqb i 0 && color_class then
      if Nat.eqb bit 0 then CLASS_BITS_COLOR
      else if Nat.eqb bit 1 && is_char "1" bits 0 then CLASS_BITS_COLOR
      else if Nat.eqb bit 2 && starts_with (lit "11") bits then CLASS_BITS_COLOR
      else if Nat.eqb bit 3 && starts_with (lit "111") bits then CLASS_BITS_COLOR
      else color
    else color.

  (** show_net.rs:152-226: the loop over the bytes, starting at byte [i], with
      [len] bytes overall. The [color_class] variable is only updated and only
      used for byte 0. *)
  Fixpoint output_binary_ipv4_loop (i len : nat) (addr_bytes : list N) (mask_bytes : option (list N))
           (color_class : bool) (override_color : option color) : io unit :=
    match addr_bytes with
    | [] => io_ret tt
    | b :: addr_bytes' =>
        m <-- io_lift (match mask_bytes with
                       | None => Ret None
                       | Some mb => x <- index mb i ;; Ret (Some x)
                       end) ;;
        let bits := bytes_to_binary [b] in
        let mask_bits := option_map (fun mb => bytes_to_binary [mb]) m in
        cc <-- (match override_color with
                | Some _ => write_in_color bits override_color 0 ;;; io_ret color_class
                | None =>
                    match mask_bits with
                    | None => write_in_color bits (Some HOST_BITS_COLOR) 0 ;;; io_ret color_class
                    | Some mask_bits =>
                        let color_class :=
                          if Nat.eqb i 0 then v4_color_class color_class bits mask_bits
                          else color_class in
                        io_for (seq 0 8) (fun bit =>
                          ch <-- io_lift (index bits bit) ;;
                          write_in_color [ch]
                            (Some (v4_bit_color i color_class bits mask_bits bit)) 0) ;;;
                        io_ret color_class
                    end
                end) ;;
        (if Nat.ltb i (len - 1) then write_in_color (lit ".") (Some ADDR_SEP_COLOR) 0
         else io_ret tt) ;;;
        output_binary_ipv4_loop (S i) len addr_bytes' mask_bytes cc override_color
    end.

  (** show_net.rs:143-227. *)
  Definition output_binary_ipv4_address (addr : ipv4) (subnet_mask : option ipv4)
             (color_class : bool) (override_color : option color) : io unit :=
    let addr_bytes := to_bytes addr in
    let mask_bytes := option_map to_bytes subnet_mask in
    output_binary_ipv4_loop 0 (List.length addr_bytes) addr_bytes mask_bytes color_class override_color.

  (** show_net.rs:238-275: the loop over the bytes, starting at byte [i]. *)
  Fixpoint output_binary_ipv6_loop (i len : nat) (addr_bytes : list N) (mask_bytes : option (list N))
           (override_color : option color) : io unit :=
    match addr_bytes with
    | [] => io_ret tt
    | b :: addr_bytes' =>
        m <-- io_lift (match mask_bytes with
                       | None => Ret None
                       | Some mb => x <- index mb i ;; Ret (Some x)
                       end) ;;
        let bits := bytes_to_binary [b] in
        let mask_bits := option_map (fun mb => bytes_to_binary [mb]) m in
        (match override_color with
         | Some _ => write_in_color bits override_color 0
         | None =>
             match mask_bits with
             | None => write_in_color bits (Some HOST_BITS_COLOR) 0
             | Some mask_bits =>
                 io_for (seq 0 8) (fun bit =>
                   ch <-- io_lift (index bits bit) ;;
                   write_in_color [ch]
                     (Some (if is_char "1" mask_bits bit then NET_BITS_COLOR
                            else HOST_BITS_COLOR)) 0)
             end
         end) ;;;
        (if Nat.ltb i (len - 1) && Nat.eqb (i mod 2) 1
         then write_in_color (lit ":") (Some ADDR_SEP_COLOR) 0
         else io_ret tt) ;;;
        output_binary_ipv6_loop (S i) len addr_bytes' mask_bytes override_color
    end.

  (** show_net.rs:229-276. *)
  Definition output_binary_ipv6_address (addr : ipv6) (subnet_mask : option ipv6)
             (color_class : bool) (override_color : option color) : io unit :=
    let addr_bytes := to_bytes addr in
    let mask_bytes := option_map to_bytes subnet_mask in
    output_binary_ipv6_loop 0 (List.length addr_bytes) addr_bytes mask_bytes override_color.

  Section Generic.
    Context {A : Type} `{IpAddress A}.
    Context (label_width address_width : Z).
    Context (output_binary_address : A -> option A -> bool -> option color -> io unit).
    Context (output_class : str -> str -> io unit).

    (** show_net.rs:58-61. *)
    Definition output_initial_columns (label address : str) : io unit :=
      write_in_color label (Some LABEL_COLOR) label_width ;;;
      write_in_color address (Some IP_ADDRESS_COLOR) address_width.

    (** show_net.rs:63-83. *)
    Definition output_given_address (net : network A) (a : A) : io unit :=
      output_initial_columns (lit "Address:") (display a) ;;;
      output_binary_address a (Some (subnet_mask net)) false None ;;;
      println [] ;;;
      let netmask_addr_str :=
        match cidr_prefix net with
        | Some pfx => display (subnet_mask net) ++ lit " = " ++ fmt_dec pfx
        | None => display (subnet_mask net)
        end in
      output_initial_columns (lit "Netmask:") netmask_addr_str ;;;
      output_binary_address (subnet_mask net) None false (Some MASK_BITS_COLOR) ;;;
      println [] ;;;
      output_initial_columns (lit "Wildcard:") (display (cisco_wildcard net)) ;;;
      output_binary_address (cisco_wildcard net) None false None ;;;
      println [] ;;;
      write_in_color (lit "=>") (Some LABEL_COLOR) 0 ;;;
      println [].

    (** show_net.rs:50-125. The crate only compiles with the num-bigint feature
        (line 115 uses host_count and BigInt unconditionally), so the [cfg!] of
        line 114 is true. [to_bytes()[0..1]] is the list of the first byte. *)
    Definition output_network (net : network A) (addr : option A) : io unit :=
      (match addr with
       | Some a => output_given_address net a
       | None => io_ret tt
       end) ;;;
      let net_str :=
        match cidr_prefix net with
        | Some pfx => display (base_addr net) ++ lit "/" ++ fmt_dec pfx
        | None => display (base_addr net)
        end in
      output_initial_columns (lit "Network:") net_str ;;;
      output_binary_address (base_addr net) (Some (subnet_mask net)) true None ;;;
      println [] ;;;
      fha <-- io_lift (first_host_addr net) ;;
      (match fha with
       | Some fha =>
           output_initial_columns (lit "HostMin:") (display fha) ;;;
           output_binary_address fha None false None ;;;
           println [] ;;;
           lha <-- io_lift (last_host_addr net) ;;
           lha <-- io_lift (unwrap lha) ;;
           output_initial_columns (lit "HostMax:") (display lha) ;;;
           output_binary_address lha None false None
       | None => write_in_color (lit "no hosts") (Some LABEL_COLOR) 0
       end) ;;;
      println [] ;;;
      bc <-- io_lift (broadcast_addr net) ;;
      (match bc with
       | Some bc =>
           output_initial_columns (lit "Broadcast:") (display bc) ;;;
           output_binary_address bc None false None
       | None => write_in_color (lit "no broadcast") (Some LABEL_COLOR) 0
       end) ;;;
      println [] ;;;
      if (0 <? host_count net)%Z then
        output_initial_columns (lit "Hosts/Net:") (fmt_Z (host_count net)) ;;;
        b0 <-- io_lift (index (to_bytes (base_addr net)) 0) ;;
        m0 <-- io_lift (index (to_bytes (subnet_mask net)) 0) ;;
        output_class (bytes_to_binary [b0]) (bytes_to_binary [m0]) ;;;
        println []
      else write_in_color (lit "no hosts/net") (Some LABEL_COLOR) 0.
  End Generic.

  (** show_net.rs:279-288. *)
  Definition output_ipv4_network (net : network ipv4) (addr : option ipv4) : io unit :=
    output_network 11 21 output_binary_ipv4_address output_ipv4_class net addr.

  (** show_net.rs:291-300. *)
  Definition output_ipv6_network (net : network ipv6) (addr : option ipv6) : io unit :=
    output_network 11 46 output_binary_ipv6_address (fun _ _ => io_ret tt) net addr.

  (** show_net.rs:23-32: parsing; [inr] is the error that ends the command. *)
  Fixpoint show_parse (args : list str) (specs : list network_spec)
    : res (result (list network_spec) netspec_error) :=
    match args with
    | [] => Ret (ROk specs)
    | arg :: args' =>
        r <- parse_netspec arg ;;
        match r with
        | ROk spec => show_parse args' (specs ++ [spec])
        | RErr e => Ret (RErr e)
        end
    end.

  (** show_net.rs:34-45. *)
  Fixpoint show_specs (specs : list network_spec) (is_first : bool) : io unit :=
    match specs with
    | [] => io_ret tt
    | spec :: specs' =>
        (if is_first then io_ret tt else println []) ;;;
        (match spec with
         | Spec4 a n => output_ipv4_network n (Some a)
         | Spec6 a n => output_ipv6_network n (Some a)
         end) ;;;
        show_specs specs' false
    end.

  (** show_net.rs:22-48; [args] includes the program name. *)
  Definition show_net (args : list str) : io Z :=
    r <-- io_lift (show_parse (tl args) []) ;;
    match r with
    | RErr e => eprintln (MsgError e) ;;; io_ret 1%Z
    | ROk specs => show_specs specs true ;;; io_ret 0%Z
    end.
End WithTerminal.
