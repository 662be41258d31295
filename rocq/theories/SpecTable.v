(** * SpecTable: the report as a table (C96) *)
From Verif Require Import RustBase Addr Net Console SpecText SpecIO SpecShow.
From Verif Require Export SpecProcess SpecWhole.

(** Characters of the longest address, of the longest prefix length. *)
Definition longest (F : family) : nat := match F with V4 => 15 | V6 => 39 end.
Definition longest_prefix (F : family) : nat := match F with V4 => 2 | V6 => 3 end.

(** Columns of the binary form of an address; of a whole row: label, text, bits. *)
Definition bits_width (F : family) : nat := (N.to_nat (width F) + N.to_nat (width F) / group_size F - 1)%nat.
Definition line_width (F : family) : nat := (11 + text_width F + bits_width F)%nat.

(** [c] is in column [i] of the line. *)
Definition char_at (l : str) (i : nat) (c : ascii) : bool :=
  match nth_error l i with Some x => Ascii.eqb x c | None => false end.

(** The first column has 11 characters, the second one as many as the family wants.
    Both end with a space. *)
Definition cells (F : family) (l : str) : bool := char_at l 10 " " && char_at l (10 + text_width F) " ".
(** Then come zeros and ones, with separators in their places, and nothing else. *)
Definition tabular (F : family) (l : str) : bool :=
  Nat.eqb (List.length l) (line_width F) && cells F l &&
  forallb (fun i =>
      let j := (11 + text_width F + i)%nat in
      if Nat.eqb (i mod S (group_size F)) (group_size F) then char_at l j (group_sep F)
      else char_at l j "0" || char_at l j "1")
    (seq 0 (bits_width F)).

(** Lines without columns. *)
Definition remarks : list str := [lit "=>"; lit "no hosts"; lit "no broadcast"; lit "no hosts/net"; []].
(** The line with the number of hosts. *)
Definition summary (F : family) (l : str) : Prop :=
  cells F l = true /\ firstn 11 l = lit "Hosts/Net: " /\
  In (skipn (11 + text_width F) l)
    [[]; lit "Class A"; lit "Class B"; lit "Class C"; lit "Class D (multicast)"; lit "Class E (reserved)"].

(** How many rows the description of a network with [k] addresses has. *)
Definition rows (address : bool) (k : N) : nat :=
  ((if address then 3 else 0) + 1 + (if (4 <=? k)%N then 2 else 0) + (if (2 <=? k)%N then 1 else 0))%nat.

(** No line of [s] is longer than [w]. *)
Definition fits (w : nat) (s : str) : Prop := Forall (fun l => (List.length l <= w)%nat) (pieces "010" s).
