(** * SpecProcess: vocabulary for what the operating system sees of the program *)
From Verif Require Import RustBase Console Messages Process SpecText SpecShow SpecMain.

(** Printable ASCII. *)
Definition printable_ascii (c : ascii) : Prop := 32 <= N_of_ascii c <= 126.

(** Lines of text as bytes. *)
Definition lines (ls : list str) : str := flat_map (fun l => l ++ newline) ls.

(** The pieces of [s] between the [x]. *)
Fixpoint pieces (x : ascii) (s : str) : list str :=
  match s with
  | [] => [[]]
  | c :: s' =>
      match pieces x s' with
      | t :: ts => if Ascii.eqb c x then [] :: t :: ts else (c :: t) :: ts
      | [] => []
      end
  end.
(** The lines of a text, each of which ends with a line break. *)
Definition text_lines (s : str) : list str := removelast (pieces "010" s).

(** ** A colour terminal *)
(** What text is drawn in: nothing special, or one of the eight colours, dark or
    bright; a colour is 1 for red, plus 2 for green, plus 4 for blue. *)
Inductive pen := Normal | Ink (bright : bool) (n : N).

Definition pen_dec (p q : pen) : {p = q} + {p <> q}.
Proof. decide equality; [apply N.eq_dec|apply bool_dec]. Defined.

(** The semicolon-separated numbers of a control sequence. *)
Definition numbers (s : str) : option (list N) :=
  fold_right (fun t o => match numeral 10 t, o with Some x, Some l => Some (x :: l) | _, _ => None end)
             (Some []) (pieces ";" s).
(** ECMA-48 "select graphic rendition", as far as it is needed: 0 is normal, 30 to
    37 are the dark colours, 38;5;8 to 38;5;15 the bright ones. *)
Definition rendition (l : list N) : option pen :=
  match l with
  | [0] => Some Normal
  | [k] => if (30 <=? k) && (k <=? 37) then Some (Ink false (k - 30)) else None
  | [38; 5; k] => if (8 <=? k) && (k <=? 15) then Some (Ink true (k - 8)) else None
  | _ => None
  end.
(** The terminal: each character it shows with the pen it is drawn in, and the pen
    at the end. [seq] is a control sequence being read, after the escape and the
    bracket, in reverse. [None]: something the terminal does not understand. *)
Inductive reading := Text | Escape | Sequence (sofar : str).
Fixpoint terminal (p : pen) (q : reading) (s : str) : option (list (ascii * pen) * pen) :=
  match s with
  | [] => match q with Text => Some ([], p) | _ => None end
  | c :: s' =>
      match q with
      | Text =>
          if Ascii.eqb c "027" then terminal p Escape s'
          else match terminal p Text s' with
               | Some (l, p') => Some ((c, p) :: l, p')
               | None => None
               end
      | Escape => if Ascii.eqb c "[" then terminal p (Sequence []) s' else None
      | Sequence sofar =>
          if Ascii.eqb c "m" then
            match numbers (rev sofar) with
            | Some l => match rendition l with Some p' => terminal p' Text s' | None => None end
            | None => None
            end
          else terminal p (Sequence (c :: sofar)) s'
      end
  end.
(** What is seen of [s] on a terminal, starting with a normal pen. *)
Definition seen (s : str) : option (list (ascii * pen) * pen) := terminal Normal Text s.

(** The pen a colour stands for: by the primary colours in it. *)
Definition mix (r g b : bool) : N := N.b2n r + 2 * N.b2n g + 4 * N.b2n b.
Definition pen_of (c : color) : pen :=
  match c with
  | Black => Ink false (mix false false false)
  | DarkRed => Ink false (mix true false false)
  | DarkGreen => Ink false (mix false true false)
  | DarkYellow => Ink false (mix true true false)
  | DarkBlue => Ink false (mix false false true)
  | DarkMagenta => Ink false (mix true false true)
  | DarkCyan => Ink false (mix false true true)
  | Gray => Ink false (mix true true true)
  | DarkGray => Ink true (mix false false false)
  | Red => Ink true (mix true false false)
  | Green => Ink true (mix false true false)
  | Yellow => Ink true (mix true true false)
  | Blue => Ink true (mix false false true)
  | Magenta => Ink true (mix true false true)
  | Cyan => Ink true (mix false true true)
  | White => Ink true (mix true true true)
  end.
(** What a mark looks like on a colour terminal. *)
Definition drawn (m : mark) : list (ascii * pen) :=
  match m with
  | Frag c s => map (fun x => (x, pen_of c)) s
  | Plain s => map (fun x => (x, Normal)) s
  | Problem _ => []
  end.

(** The colours with their names, in the order of the colour test. *)
Definition palette : list (str * color) :=
  [ (lit "Black", Black); (lit "DarkBlue", DarkBlue); (lit "DarkGreen", DarkGreen); (lit "DarkCyan", DarkCyan);
    (lit "DarkRed", DarkRed); (lit "DarkMagenta", DarkMagenta); (lit "DarkYellow", DarkYellow); (lit "Gray", Gray);
    (lit "DarkGray", DarkGray); (lit "Blue", Blue); (lit "Green", Green); (lit "Cyan", Cyan);
    (lit "Red", Red); (lit "Magenta", Magenta); (lit "Yellow", Yellow); (lit "White", White) ].

(** The usage text. *)
Definition usage_text : list str :=
  [ lit "Usage: ripcalc IPADDRESS/SUBNET...";
    lit "       ripcalc -m|--minimize IPADDRESS/SUBNET...";
    lit "       ripcalc -d|--derange IPADDRESS IPADDRESS...";
    lit "       ripcalc -s|--split IPADDRESS/CIDRPREFIX HOSTCOUNT...";
    lit "       ripcalc -r|--resize IPADDRESS/SUBNET SUBNET";
    lit "       ripcalc -e|--enumerate IPADDRESS/SUBNET";
    [];
    lit "SUBNET is one of: SUBNETMASK";
    lit "                  CIDRPREFIX";
    lit "                  -WILDCARD";
    [];
    lit "IPv4 and IPv6 are supported, but cannot be mixed within an invocation." ].

(** ** Unicode text *)
(** Unicode scalar values, and their UTF-8 encoding. *)
Definition scalar (n : N) : Prop := n < 0xd800 \/ 0xe000 <= n < 0x110000.
Definition utf8 (n : N) : str :=
  map ascii_of_N
    (if n <? 0x80 then [n]
     else if n <? 0x800 then [0xc0 + n / 64; 0x80 + n mod 64]
     else if n <? 0x10000 then [0xe0 + n / 4096; 0x80 + n / 64 mod 64; 0x80 + n mod 64]
     else [0xf0 + n / 262144; 0x80 + n / 4096 mod 64; 0x80 + n / 64 mod 64; 0x80 + n mod 64]).
(** Text. *)
Definition unicode (s : str) : Prop := exists ns, Forall scalar ns /\ s = flat_map utf8 ns.

(** A line of text without control characters. *)
Definition control (n : N) : Prop := n < 32 \/ 127 <= n < 160.
Definition tidy (s : str) : Prop :=
  exists ns, Forall (fun n => scalar n /\ ~ control n) ns /\ s = flat_map utf8 ns.

(** Tables for examples: nothing is printable; all from the inverted exclamation
    mark on is. *)
Definition no_unicode : Unicode := {| printable := fun _ => false; printable_law := fun n E => match Bool.diff_false_true E with end |}.
Definition all_unicode : Unicode := {| printable := N.ltb 0xa0; printable_law := fun n => proj1 (N.ltb_lt 0xa0 n) |}.

(** ** Rust's string literals *)
(** Reads a string literal, after its opening quote; the result is the text and
    what follows the closing quote. [k] bounds the number of steps. *)
Definition unescape (c : ascii) : option ascii :=
  match c with
  | "0" => Some "000" | "t" => Some "009" | "n" => Some "010" | "r" => Some "013"
  | "\" => Some "\" | """" => Some """" | "'" => Some "'"
  | _ => None
  end%char.
Fixpoint split_at (x : ascii) (s : str) : option (str * str) :=
  match s with
  | [] => None
  | c :: s' => if Ascii.eqb c x then Some ([], s')
               else match split_at x s' with Some (a, b) => Some (c :: a, b) | None => None end
  end.
Fixpoint literal_body (k : nat) (s : str) : option (str * str) :=
  match k, s with
  | S k', c :: s' =>
      if Ascii.eqb c """" then Some ([], s')
      else if Ascii.eqb c "\" then
        match s' with
        | "u"%char :: "{"%char :: s2 =>
            match split_at "}" s2 with
            | Some (h, s3) =>
                match numeral 16 h, literal_body k' s3 with
                | Some n, Some (t, rest) => Some (utf8 n ++ t, rest)
                | _, _ => None
                end
            | None => None
            end
        | e :: s2 =>
            match unescape e, literal_body k' s2 with
            | Some x, Some (t, rest) => Some (x :: t, rest)
            | _, _ => None
            end
        | [] => None
        end
      else match literal_body k' s' with
           | Some (t, rest) => Some (c :: t, rest)
           | None => None
           end
  | _, _ => None
  end.
Definition literal (s : str) : option (str * str) :=
  match s with
  | c :: s' => if Ascii.eqb c """" then literal_body (List.length s') s' else None
  | [] => None
  end.
