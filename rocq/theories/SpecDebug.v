(** * SpecDebug: how values should be printed for debugging (C97) *)
From Verif Require Import RustBase Addr Net Parse Console Debugging SpecText.
From Verif Require Export SpecProcess.

(** ** Rust's tokens *)
Inductive token := Number (n : N) | Word (s : str) | Text (s : str) | Mark (c : ascii).

Definition wordly (c : ascii) : bool :=
  existsb (Ascii.eqb c) (lit "0123456789ABCDEFGHIJKLMNOPQRSTUVWXYZ_abcdefghijklmnopqrstuvwxyz").
Definition blank (c : ascii) : bool := Ascii.eqb c " " || Ascii.eqb c "010".
(** A word that is a numeral is a number. *)
Definition word (s : str) : token := match numeral 10 s with Some n => Number n | None => Word s end.

(** The longest beginning of word characters, and the rest. *)
Fixpoint span (s : str) : str * str :=
  match s with
  | c :: s' => if wordly c then let (w, r) := span s' in (c :: w, r) else ([], s)
  | [] => ([], [])
  end.
(** Words, string literals, and other characters, with blanks between them; [k] bounds
    the number of steps. *)
Fixpoint tokens_in (k : nat) (s : str) : list token :=
  match k, s with
  | S k', c :: s' =>
      if blank c then tokens_in k' s'
      else if wordly c then let (w, r) := span s in word w :: tokens_in k' r
      else match literal s with
           | Some (t, rest) => Text t :: tokens_in k' rest
           | None => Mark c :: tokens_in k' s'
           end
  | _, _ => []
  end.
Definition tokens (s : str) : list token := tokens_in (List.length s) s.

Definition is_mark (cs : list ascii) (t : token) : bool :=
  match t with Mark c => existsb (Ascii.eqb c) cs | _ => false end.
Definition opener : token -> bool := is_mark (lit "([{").
Definition closer : token -> bool := is_mark (lit ")]}").
(** Without the commas before closing brackets, which mean nothing. *)
Fixpoint untrailed (ts : list token) : list token :=
  match ts with
  | t :: ts' =>
      match ts' with
      | t' :: _ => if is_mark (lit ",") t && closer t' then untrailed ts' else t :: untrailed ts'
      | [] => [t]
      end
  | [] => []
  end.

(** ** Values *)
(** The tokens of [pattern] with the [xs] in the places marked by an underscore. *)
Fixpoint fill_tokens (ts : list token) (xs : list (list token)) : list token :=
  match ts with
  | Word ["_"%char] :: ts' =>
      match xs with x :: xs' => x ++ fill_tokens ts' xs' | [] => fill_tokens ts' [] end
  | t :: ts' => t :: fill_tokens ts' xs
  | [] => []
  end.
Definition spelled (pattern : string) (xs : list (list token)) : list token := fill_tokens (tokens (lit pattern)) xs.

Fixpoint with_commas (xs : list (list token)) : list token :=
  match xs with
  | [] => []
  | x :: xs' => match xs' with [] => x | _ => x ++ Mark "," :: with_commas xs' end
  end.

Definition number (n : N) : list token := [Number n].
Definition tokens_v4 (a : ipv4) : list token := spelled "Ipv4Address { addr_value: _ }" [number (addr_value a)].
Definition tokens_v6 (a : ipv6) : list token :=
  spelled "Ipv6Address { top_half: _, bottom_half: _ }" [number (top_half a); number (bottom_half a)].
Definition tokens_net {A : Type} (f : A -> list token) (n : network A) : list token :=
  spelled "IpNetwork { base_addr: _, subnet_mask: _, cidr_prefix: _ }"
    [f (base_addr n); f (subnet_mask n); match cidr_prefix n with Some p => spelled "Some(_)" [number p] | None => spelled "None" [] end].
Definition tokens_pair {A : Type} (f : A -> list token) (p : A * network A) : list token :=
  spelled "(_, _)" [f (fst p); tokens_net f (snd p)].
Definition tokens_int_error (e : int_error) : list token :=
  match e with
  | IE_Empty => spelled "ParseIntError { kind: Empty }" []
  | IE_InvalidDigit => spelled "ParseIntError { kind: InvalidDigit }" []
  | IE_PosOverflow => spelled "ParseIntError { kind: PosOverflow }" []
  end.
Definition tokens_addr_error (e : addr_error) : list token :=
  match e with
  | UnknownAddressType => spelled "UnknownAddressType" []
  | IncorrectChunkCount got expected => spelled "IncorrectChunkCount(_, _)" [number (N.of_nat got); number (N.of_nat expected)]
  | EmptyChunk i => spelled "EmptyChunk(_)" [number (N.of_nat i)]
  | ChunkParseError i chunk why => spelled "ChunkParseError(_, _, _)" [number (N.of_nat i); [Text chunk]; tokens_int_error why]
  | ChunkOutOfRange i got min max => spelled "ChunkOutOfRange(_, _, _, _)" [number (N.of_nat i); number got; number min; number max]
  | TooManyShorteningElements got most => spelled "TooManyShorteningElements(_, _)" [number (N.of_nat got); number (N.of_nat most)]
  end.

(** How a value is written in Rust, but for blanks. *)
Definition tokens_of (d : datum) : list token :=
  match d with
  | D4 a => tokens_v4 a
  | D6 a => tokens_v6 a
  | DNet4 n => tokens_net tokens_v4 n
  | DNet6 n => tokens_net tokens_v6 n
  | DParsed (PAddr4 a) => spelled "Ipv4(_)" [tokens_v4 a]
  | DParsed (PAddr6 a) => spelled "Ipv6(_)" [tokens_v6 a]
  | DSpec (Spec4 a n) => spelled "Ipv4(_, _)" [tokens_v4 a; tokens_net tokens_v4 n]
  | DSpec (Spec6 a n) => spelled "Ipv6(_, _)" [tokens_v6 a; tokens_net tokens_v6 n]
  | DSpecs SpecsNothing => spelled "Nothing" []
  | DSpecs SpecsMixed => spelled "MixedSpecs" []
  | DSpecs (Specs4 l) => spelled "Ipv4([_])" [with_commas (map (tokens_pair tokens_v4) l)]
  | DSpecs (Specs6 l) => spelled "Ipv6([_])" [with_commas (map (tokens_pair tokens_v6) l)]
  | DSubnet (PSCidr p) => spelled "Cidr(_)" [number p]
  | DSubnet (PSMask4 m) => spelled "Ipv4Mask(_)" [tokens_v4 m]
  | DSubnet (PSMask6 m) => spelled "Ipv6Mask(_)" [tokens_v6 m]
  | DColor c =>
      nth (N.to_nat match c with
          | Black => 0 | DarkBlue => 1 | DarkGreen => 2 | DarkCyan => 3 | DarkRed => 4 | DarkMagenta => 5 | DarkYellow => 6 | Gray => 7
          | DarkGray => 8 | Blue => 9 | Green => 10 | Cyan => 11 | Red => 12 | Magenta => 13 | Yellow => 14 | White => 15
          end)
        (map (fun t => [t]) (tokens (lit "Black DarkBlue DarkGreen DarkCyan DarkRed DarkMagenta DarkYellow Gray DarkGray Blue Green Cyan Red Magenta Yellow White")))
        []
  | DIntError e => tokens_int_error e
  | DAddrError e => tokens_addr_error e
  | DNetspecError (Unrecognized s) => spelled "Unrecognized(_)" [[Text s]]
  | DNetspecError (AddressError e) => spelled "Address(_)" [tokens_addr_error e]
  | DNetspecError (MaskError e) => spelled "Mask(_)" [tokens_addr_error e]
  | DNetspecError (CidrParseError e) => spelled "CidrParse(_)" [tokens_int_error e]
  | DNetspecError (CidrRange got max) => spelled "CidrRange(_, _)" [number got; number max]
  end.

(** The texts in a value are texts. *)
Definition addr_error_fine (e : addr_error) : Prop := match e with ChunkParseError _ s _ => unicode s | _ => True end.
Definition datum_fine (d : datum) : Prop :=
  match d with
  | DAddrError e | DNetspecError (AddressError e) | DNetspecError (MaskError e) => addr_error_fine e
  | DNetspecError (Unrecognized s) => unicode s
  | _ => True
  end.

(** ** Layout *)
Fixpoint leading (l : str) : nat := match l with " "%char :: l' => S (leading l') | _ => 0 end.
(** Each line is indented by four spaces for each bracket that is open where it starts,
    not counting the one that it closes first. [depth] brackets are open. *)
Fixpoint aligned (depth : nat) (ls : list str) : Prop :=
  match ls with
  | [] => depth = 0%nat
  | l :: ls' =>
      let ts := tokens l in
      leading l = (4 * match ts with t :: _ => if closer t then depth - 1 else depth | [] => depth end)%nat /\
      aligned (depth + List.length (filter opener ts) - List.length (filter closer ts)) ls'
  end.
(** A comma ends its line. *)
Definition comma_ends (l : str) : Prop := Forall (fun t => t <> Mark ",") (removelast (tokens l)).

(** A text of several lines on one line: a comma before a closing bracket goes; there is a
    space after other commas and inside of braces. *)
Definition last_is (cs : list ascii) (s : str) : bool :=
  match rev s with c :: _ => existsb (Ascii.eqb c) cs | [] => false end.
Definition first_is (cs : list ascii) (s : str) : bool :=
  match s with c :: _ => existsb (Ascii.eqb c) cs | [] => false end.
Definition continue (s l : str) : str :=
  let l := skipn (leading l) l in
  if first_is (lit ")]}") l then (if last_is (lit ",") s then removelast s else s) ++ (if first_is (lit "}") l then lit " " else []) ++ l
  else s ++ (if last_is (lit ",{") s then lit " " else []) ++ l.
Definition one_line (ls : list str) : str := fold_left continue ls [].
