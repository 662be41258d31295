(** * SpecShow: vocabulary for the description of a network on the terminal *)
From Verif Require Import RustBase Addr Net Console ShowNet Spec SpecText SpecIO.

(** What the program sends out, regardless of colour support: a fragment with a
    colour, plain text, or a message on stderr. *)
Inductive mark :=
| Frag (c : color) (s : str)
| Plain (s : str)
| Problem (m : errmsg).

(** With colour support a fragment is just styled; without, it comes with a line
    break. *)
Definition paint (colours : bool) (m : mark) : event :=
  match m with
  | Frag c s => if colours then EvStyled c s else line s
  | Plain s => EvOut s
  | Problem e => EvErr e
  end.

Definition break : mark := Plain newline.

(** The characters of fragments with their colours. *)
Definition coloured (ms : list mark) : list (ascii * color) :=
  flat_map (fun m => match m with Frag c s => map (fun x => (x, c)) s | _ => [] end) ms.

(** The characters an event puts on stdout. *)
Definition shown (e : event) : str :=
  match e with EvOut s => s | EvStyled _ s => s | EvErr _ => [] end.
Definition stdout (es : list event) : str := flat_map shown es.

(** [s] filled up with spaces to [k] characters. *)
Definition fill (k : nat) (s : str) : str := s ++ repeat " "%char (k - List.length s).

(** ** The binary column *)
Definition bit_char (b : bool) : ascii := if b then "1"%char else "0"%char.
Definition group_size (F : family) : nat := match F with V4 => 8 | V6 => 16 end.
Definition group_sep (F : family) : ascii := match F with V4 => "."%char | V6 => ":"%char end.

(** The bits of an address in groups, separators between them. *)
Definition binary_text {F : family} (a : addr F) : str :=
  separated (group_sep F)
    (map (fun g => map bit_char (firstn (group_size F) (skipn (g * group_size F) (abits a))))
         (seq 0 (N.to_nat (width F) / group_size F))).

(** [k] bits at a time in one fragment, a separator behind each full group but
    the last; [colour j] is the colour of the fragment that starts with bit [j]. *)
Definition column {F : family} (k : nat) (a : addr F) (colour : nat -> color) : list mark :=
  let w := N.to_nat (width F) in
  flat_map (fun i =>
      Frag (colour (i * k)%nat) (map bit_char (firstn k (skipn (i * k) (abits a)))) ::
      (if Nat.eqb ((S i * k) mod group_size F) 0 && Nat.ltb (S i * k) w
       then [Frag White [group_sep F]] else []))
    (seq 0 (w / k)).

(** ** Classes of IPv4 addresses *)
Definition class_label (a : addr V4) : str :=
  if value a <? 128 * 2 ^ 24 then lit "Class A"
  else if value a <? 192 * 2 ^ 24 then lit "Class B"
  else if value a <? 224 * 2 ^ 24 then lit "Class C"
  else if value a <? 240 * 2 ^ 24 then lit "Class D (multicast)"
  else lit "Class E (reserved)".
(** Number of leading bits that tell the class. *)
Definition class_bits (a : addr V4) : nat :=
  if value a <? 128 * 2 ^ 24 then 1
  else if value a <? 192 * 2 ^ 24 then 2
  else if value a <? 224 * 2 ^ 24 then 3
  else 4.

(** All addresses of the network are of class [t]. *)
Definition all_of_class (n : net V4) (t : str) : Prop :=
  forall a, valid a -> member n a -> class_label a = t.
Definition class_of (F : family) : net F -> option str -> Prop :=
  match F as F return net F -> option str -> Prop with
  | V4 => fun n o => match o with
                     | Some t => all_of_class n t
                     | None => forall t, ~ all_of_class n t
                     end
  | V6 => fun _ o => o = None
  end.

(** When the class bits of a network are set off: the mask covers the first bit,
    and for each of the first three bits that is set, the next bit. *)
Definition class_shown (a m : addr V4) : bool :=
  let b i := nth i (abits a) false in
  let k i := nth i (abits m) false in
  k 0%nat && implb (b 0%nat) (k 1%nat) && implb (b 1%nat) (k 2%nat) && implb (b 2%nat) (k 3%nat).

(** The colour of bit [j] of an address shown along with a mask. *)
Definition class_bit (F : family) : addr F -> addr F -> nat -> bool :=
  match F as F return addr F -> addr F -> nat -> bool with
  | V4 => fun a m j => class_shown a m && Nat.ltb j (class_bits a)
  | V6 => fun _ _ _ => false
  end.
Definition bit_colour {F : family} (a m : addr F) (class : bool) (j : nat) : color :=
  if class && class_bit F a m j then Magenta
  else if nth j (abits m) false then Green else Yellow.

(** ** The report *)
(** The addresses between the lowest and the highest one. *)
Definition host_range {F : family} (n : net F) (o : option (addr F * addr F)) : Prop :=
  exists k, count n k /\
  match o with
  | None => k < 4
  | Some (x, y) => 4 <= k /\
      exists l h, lowest n l /\ highest n h /\
        valid x /\ member n x /\ value l < value x /\
        valid y /\ member n y /\ value y < value h /\
        forall c, valid c -> member n c -> c = l \/ c = h \/ value x <= value c <= value y
  end.
Definition broadcast_of {F : family} (n : net F) (o : option (addr F)) : Prop :=
  exists k, count n k /\
  match o with
  | None => k < 2
  | Some b => 2 <= k /\ highest n b
  end.

Definition text_width (F : family) : nat := match F with V4 => 21 | V6 => 46 end.
Definition headings {F : family} (label text : str) : list mark :=
  [Frag White (fill 11 label); Frag Blue (fill (text_width F) text)].
(** A row for an address: without and with a mask to colour it by. *)
Definition row {F : family} `{Rust} (label text : str) (a : addr F) (c : color) : list mark :=
  headings (F := F) label text ++ column 8 a (fun _ => c) ++ [break].
Definition masked_row {F : family} `{Rust} (label text : str) (a m : addr F) (class : bool) : list mark :=
  headings (F := F) label text ++ column 1 a (bit_colour a m class) ++ [break].

Definition report {F : family} `{Rust} (n : net F) (a : option (addr F))
  (hosts : option (addr F * addr F)) (bc : option (addr F)) (count : N) (class : option str) : list mark :=
  (match a with
   | None => []
   | Some a =>
       masked_row (lit "Address:") (display a) a (subnet_mask n) false ++
       row (lit "Netmask:")
         (match cidr_prefix n with
          | Some p => display (subnet_mask n) ++ lit " = " ++ fmt_dec p
          | None => display (subnet_mask n)
          end) (subnet_mask n) Red ++
       row (lit "Wildcard:") (display (bitwise_negate (subnet_mask n))) (bitwise_negate (subnet_mask n)) Yellow ++
       [Frag White (lit "=>"); break]
   end) ++
  masked_row (lit "Network:")
    (match cidr_prefix n with
     | Some p => display (base_addr n) ++ lit "/" ++ fmt_dec p
     | None => display (base_addr n)
     end) (base_addr n) (subnet_mask n) true ++
  (match hosts with
   | Some (x, y) =>
       row (lit "HostMin:") (display x) x Yellow ++ row (lit "HostMax:") (display y) y Yellow
   | None => [Frag White (lit "no hosts"); break]
   end) ++
  (match bc with
   | Some b => row (lit "Broadcast:") (display b) b Yellow
   | None => [Frag White (lit "no broadcast"); break]
   end) ++
  (if 2 <? count then
     headings (F := F) (lit "Hosts/Net:") (fmt_dec (count - 2)) ++
     (match class with Some t => [Frag Magenta t] | None => [] end) ++ [break]
   else [Frag White (lit "no hosts/net")]).

(** The programs that describe a network and an address. *)
Definition show_of `{Rust} `{Terminal} (F : family) : net F -> option (addr F) -> io unit :=
  match F as F return net F -> option (addr F) -> io unit with
  | V4 => output_ipv4_network
  | V6 => output_ipv6_network
  end.
Definition binary_of `{Rust} `{Terminal} (F : family)
  : addr F -> option (addr F) -> bool -> option color -> io unit :=
  match F as F return addr F -> option (addr F) -> bool -> option color -> io unit with
  | V4 => output_binary_ipv4_address
  | V6 => output_binary_ipv6_address
  end.

(** Terminals for examples. *)
Definition colourful : Terminal := {| colors_enabled := true |}.
Definition plain : Terminal := {| colors_enabled := false |}.
