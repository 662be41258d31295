(** * Debugging: the texts of the derived [Debug] implementations.

    [#[derive(Debug)]] prints a struct or variant by its name and its fields in the order
    of their declaration, with core::fmt's [DebugStruct], [DebugTuple] and [DebugList].
    There are two forms, that of [{:?}] and that of [{:#?}]. The program prints only
    errors this way, on one line (Messages.v); the rest is part of the crate's types. *)
From Verif Require Export RustBase Addr Net Parse Console Messages.

(** What a [Debug] implementation asks the formatter for: a plain text, a struct with
    named fields, a tuple (of no name) or tuple variant, a list. *)
Inductive shape :=
| Leaf (s : str)
| Fields (name : str) (fs : list (str * shape))
| Tuple (name : str) (ds : list shape)
| Many (ds : list shape).

(** core::fmt::builders without the alternate flag. *)
Fixpoint compact (d : shape) : str :=
  match d with
  | Leaf s => s
  | Fields name fs =>
      name ++ lit " { " ++ join (lit ", ") (map (fun f => fst f ++ lit ": " ++ compact (snd f)) fs) ++ lit " }"
  | Tuple name ds => name ++ lit "(" ++ join (lit ", ") (map compact ds) ++ lit ")"
  | Many ds => lit "[" ++ join (lit ", ") (map compact ds) ++ lit "]"
  end.

(** core::fmt::builders [PadAdapter]: four spaces before each line; [fresh] is its
    [on_newline]. *)
Fixpoint pad (fresh : bool) (s : str) : str :=
  match s with
  | [] => []
  | c :: s' => (if fresh then lit "    " else []) ++ c :: pad (Ascii.eqb c "010") s'
  end.

(** core::fmt::builders with the alternate flag. *)
Fixpoint pretty (d : shape) : str :=
  match d with
  | Leaf s => s
  | Fields name fs =>
      name ++ lit " {" ++ newline ++
      flat_map (fun f => pad true (fst f ++ lit ": " ++ pretty (snd f) ++ lit "," ++ newline)) fs ++ lit "}"
  | Tuple name ds =>
      name ++ lit "(" ++ newline ++ flat_map (fun d => pad true (pretty d ++ lit "," ++ newline)) ds ++ lit ")"
  | Many [] => lit "[]"
  | Many ds => lit "[" ++ newline ++ flat_map (fun d => pad true (pretty d ++ lit "," ++ newline)) ds ++ lit "]"
  end.

(** Integers, also with the alternate flag. *)
Definition shape_int (n : N) : shape := Leaf (fmt_dec n).
(** Option<usize>. *)
Definition shape_opt (o : option N) : shape :=
  match o with None => Leaf (lit "None") | Some p => Tuple (lit "Some") [shape_int p] end.

(** addr.rs:50-53 and 195-199. *)
Definition shape_v4 (a : ipv4) : shape := Fields (lit "Ipv4Address") [(lit "addr_value", shape_int (addr_value a))].
Definition shape_v6 (a : ipv6) : shape :=
  Fields (lit "Ipv6Address") [(lit "top_half", shape_int (top_half a)); (lit "bottom_half", shape_int (bottom_half a))].

(** net.rs:9-14 [IpNetwork]. *)
Definition shape_net {A : Type} (shape_addr : A -> shape) (n : network A) : shape :=
  Fields (lit "IpNetwork")
    [(lit "base_addr", shape_addr (base_addr n)); (lit "subnet_mask", shape_addr (subnet_mask n));
     (lit "cidr_prefix", shape_opt (cidr_prefix n))].

(** mod.rs:36-40 [ParsedIpAddress]. *)
Definition shape_parsed (a : parsed_addr) : shape :=
  match a with
  | PAddr4 a => Tuple (lit "Ipv4") [shape_v4 a]
  | PAddr6 a => Tuple (lit "Ipv6") [shape_v6 a]
  end.

(** mod.rs:52-56 [NetworkSpec]. *)
Definition shape_spec (s : network_spec) : shape :=
  match s with
  | Spec4 a n => Tuple (lit "Ipv4") [shape_v4 a; shape_net shape_v4 n]
  | Spec6 a n => Tuple (lit "Ipv6") [shape_v6 a; shape_net shape_v6 n]
  end.

(** mod.rs:59-65 [NetworkSpecs]. *)
Definition shape_pair {A : Type} (shape_addr : A -> shape) (p : A * network A) : shape :=
  Tuple [] [shape_addr (fst p); shape_net shape_addr (snd p)].
Definition shape_specs (s : network_specs) : shape :=
  match s with
  | SpecsNothing => Leaf (lit "Nothing")
  | SpecsMixed => Leaf (lit "MixedSpecs")
  | Specs4 l => Tuple (lit "Ipv4") [Many (map (shape_pair shape_v4) l)]
  | Specs6 l => Tuple (lit "Ipv6") [Many (map (shape_pair shape_v6) l)]
  end.

(** mod.rs:69-74 [ParsedSubnet]. *)
Definition shape_subnet (s : parsed_subnet) : shape :=
  match s with
  | PSCidr p => Tuple (lit "Cidr") [shape_int p]
  | PSMask4 m => Tuple (lit "Ipv4Mask") [shape_v4 m]
  | PSMask6 m => Tuple (lit "Ipv6Mask") [shape_v6 m]
  end.

(** console.rs:7-25 [Color]. *)
Definition shape_color (c : color) : shape :=
  Leaf (lit match c with
  | Black => "Black" | DarkBlue => "DarkBlue" | DarkGreen => "DarkGreen" | DarkCyan => "DarkCyan" | DarkRed => "DarkRed"
  | DarkMagenta => "DarkMagenta" | DarkYellow => "DarkYellow" | Gray => "Gray" | DarkGray => "DarkGray" | Blue => "Blue"
  | Green => "Green" | Cyan => "Cyan" | Red => "Red" | Magenta => "Magenta" | Yellow => "Yellow" | White => "White"
  end).

(** core::num::ParseIntError. *)
Definition shape_int_error (e : int_error) : shape :=
  Fields (lit "ParseIntError")
    [(lit "kind", Leaf (lit match e with IE_Empty => "Empty" | IE_InvalidDigit => "InvalidDigit" | IE_PosOverflow => "PosOverflow" end))].

Section WithUnicode.
  Context `{Unicode}.

  (** addr.rs:579-587 [IpAddressParseError]. *)
  Definition shape_addr_error (e : addr_error) : shape :=
    match e with
    | UnknownAddressType => Leaf (lit "UnknownAddressType")
    | IncorrectChunkCount got expected => Tuple (lit "IncorrectChunkCount") [shape_int (N.of_nat got); shape_int (N.of_nat expected)]
    | EmptyChunk i => Tuple (lit "EmptyChunk") [shape_int (N.of_nat i)]
    | ChunkParseError i chunk error =>
        Tuple (lit "ChunkParseError") [shape_int (N.of_nat i); Leaf (debug_str chunk); shape_int_error error]
    | ChunkOutOfRange i got min max =>
        Tuple (lit "ChunkOutOfRange") [shape_int (N.of_nat i); shape_int got; shape_int min; shape_int max]
    | TooManyShorteningElements got most =>
        Tuple (lit "TooManyShorteningElements") [shape_int (N.of_nat got); shape_int (N.of_nat most)]
    end.

  (** mod.rs:77-98 [ParseNetspecError]. *)
  Definition shape_netspec_error (e : netspec_error) : shape :=
    match e with
    | Unrecognized s => Tuple (lit "Unrecognized") [Leaf (debug_str s)]
    | AddressError e => Tuple (lit "Address") [shape_addr_error e]
    | MaskError e => Tuple (lit "Mask") [shape_addr_error e]
    | CidrParseError e => Tuple (lit "CidrParse") [shape_int_error e]
    | CidrRange got max => Tuple (lit "CidrRange") [shape_int got; shape_int max]
    end.
End WithUnicode.

(** The values of the program's types that have a [Debug]. *)
Inductive datum :=
| D4 (a : ipv4) | D6 (a : ipv6) | DNet4 (n : network ipv4) | DNet6 (n : network ipv6)
| DParsed (a : parsed_addr) | DSpec (s : network_spec) | DSpecs (s : network_specs) | DSubnet (s : parsed_subnet)
| DColor (c : color) | DIntError (e : int_error) | DAddrError (e : addr_error) | DNetspecError (e : netspec_error).

Definition shape_of `{Unicode} (d : datum) : shape :=
  match d with
  | D4 a => shape_v4 a
  | D6 a => shape_v6 a
  | DNet4 n => shape_net shape_v4 n
  | DNet6 n => shape_net shape_v6 n
  | DParsed a => shape_parsed a
  | DSpec s => shape_spec s
  | DSpecs s => shape_specs s
  | DSubnet s => shape_subnet s
  | DColor c => shape_color c
  | DIntError e => shape_int_error e
  | DAddrError e => shape_addr_error e
  | DNetspecError e => shape_netspec_error e
  end.

(** What [{:?}] and, if [alternate], [{:#?}] print. *)
Definition debug_text `{Unicode} (alternate : bool) (d : datum) : str :=
  if alternate then pretty (shape_of d) else compact (shape_of d).
