(** * Regex: the fragment of the regex crate used by /repo/src/cmds/mod.rs.

    Not part of /repo: this models the dependency. A pattern [^r$] is matched by
    enumerating the ways [r] can match a prefix of the text, in the order in
    which a leftmost-first (Perl-like) engine prefers them, and taking the first
    one that consumes the whole text. Repetition is only needed for single
    character classes. All classes are ASCII, so bytes equal chars. *)
From Verif Require Export RustBase.

Inductive regex :=
| REmpty
| RChar (p : ascii -> bool)                (* one character of a class *)
| RStar (p : ascii -> bool)                (* [class]*, greedy *)
| RSeq (r1 r2 : regex)
| ROpt (r : regex)                         (* (r)?, greedy *)
| RCap (name : string) (r : regex).        (* (?P<name>r) *)

(** [class]+ and r{n}. *)
Definition RPlus (p : ascii -> bool) : regex := RSeq (RChar p) (RStar p).
Fixpoint RRep (n : nat) (r : regex) : regex :=
  match n with O => REmpty | S n' => RSeq r (RRep n' r) end.

Definition caps : Type := list (string * str).

(** All greedy splits of [s] into a prefix of class characters and the rest,
    longest first. *)
Fixpoint star_match (p : ascii -> bool) (s : str) : list (str * str) :=
  match s with
  | [] => [([], [])]
  | c :: s' =>
      if p c
      then map (fun '(m, rest) => (c :: m, rest)) (star_match p s') ++ [([], s)]
      else [([], s)]
  end.

(** (captures, matched text, rest) in order of preference. *)
Fixpoint rmatch (r : regex) (s : str) : list (caps * str * str) :=
  match r with
  | REmpty => [([], [], s)]
  | RChar p =>
      match s with
      | c :: s' => if p c then [([], [c], s')] else []
      | [] => []
      end
  | RStar p => map (fun '(m, rest) => ([], m, rest)) (star_match p s)
  | RSeq r1 r2 =>
      flat_map (fun '(c1, m1, rest1) =>
                  map (fun '(c2, m2, rest2) => (c1 ++ c2, m1 ++ m2, rest2)) (rmatch r2 rest1))
               (rmatch r1 s)
  | ROpt r => rmatch r s ++ [([], [], s)]
  | RCap name r => map (fun '(c, m, rest) => ((name, m) :: c, m, rest)) (rmatch r s)
  end.

(** [Regex::captures] for the pattern ^r$. *)
Definition captures (r : regex) (s : str) : option caps :=
  match find (fun '(_, _, rest) => match rest with [] => true | _ => false end) (rmatch r s) with
  | Some (c, _, _) => Some c
  | None => None
  end.

(** [Captures::name]. *)
Fixpoint cap_name (name : string) (c : caps) : option str :=
  match c with
  | [] => None
  | (n, s) :: c' => if String.eqb name n then Some s else cap_name name c'
  end.

(** Character classes. *)
Definition cls (chars : str) (c : ascii) : bool := existsb (Ascii.eqb c) chars.
Definition cls_digit : ascii -> bool := cls (lit "0123456789").            (* [0-9] *)
Definition cls_v6 : ascii -> bool := cls (lit "0123456789abcdef:").        (* [0-9a-f:] *)
Definition cls_one (c : ascii) : ascii -> bool := Ascii.eqb c.             (* a literal *)
