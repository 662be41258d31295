(** * RustBase: the fragment of Rust's semantics the model needs.

    No file of /repo is modelled here; this is the vocabulary in which the
    other model files transcribe /repo/src. *)
From Coq Require Export List ZArith NArith Bool Ascii String Permutation Sorted Lia.
Export ListNotations.
Open Scope N_scope.
Open Scope list_scope.
Open Scope bool_scope.

(** ** Outcomes of running a function.
    [Panic]: the thread panics (unwrap on None, failed assert!, index out of
    bounds, arithmetic overflow with overflow checks).
    [Diverge]: the function does not return (a loop exceeded 2^300 iterations or
    a recursion exceeded its fuel; see [while]). *)
Inductive res (A : Type) : Type :=
| Ret (a : A)
| Panic
| Diverge.
Arguments Ret {A} a.
Arguments Panic {A}.
Arguments Diverge {A}.

Definition bind {A B : Type} (x : res A) (f : A -> res B) : res B :=
  match x with
  | Ret a => f a
  | Panic => Panic
  | Diverge => Diverge
  end.
Notation "x <- e ;; k" := (bind e (fun x => k))
  (at level 61, e at next level, right associativity).
Notation "' p <- e ;; k" := (bind e (fun p => k))
  (at level 61, p pattern, e at next level, right associativity).

(** [Option::unwrap] / [Option::expect]. *)
Definition unwrap {A : Type} (o : option A) : res A :=
  match o with Some a => Ret a | None => Panic end.

(** Slice indexing [l[i]]: out of bounds panics. *)
Definition index {A : Type} (l : list A) (i : nat) : res A := unwrap (nth_error l i).

(** [assert!]. *)
Definition rassert (b : bool) : res unit := if b then Ret tt else Panic.

(** ** [Result] *)
Inductive result (A E : Type) : Type :=
| ROk (a : A)
| RErr (e : E).
Arguments ROk {A E} a.
Arguments RErr {A E} e.

(** [?] on a [Result]. *)
Definition rbind {A B E : Type} (x : result A E) (f : A -> result B E) : result B E :=
  match x with ROk a => f a | RErr e => RErr e end.

(** [Result::map_err]. *)
Definition map_err {A E F : Type} (f : E -> F) (x : result A E) : result A F :=
  match x with ROk a => ROk a | RErr e => RErr (f e) end.

(** ** Loops.
    [loop step k s] runs [step] from [s] until it yields a result ([inr]), at
    most 2^k times; [inl s'] means the loop is still running after 2^k steps. *)
Fixpoint loop {S R : Type} (step : S -> res (S + R)) (k : nat) (s : S) : res (S + R) :=
  match k with
  | O => step s
  | Datatypes.S k' =>
      bind (loop step k' s)
           (fun o => match o with
                     | inl s' => loop step k' s'
                     | inr r => Ret (inr r)
                     end)
  end.

(** Number of doublings: loops get 2^300 steps, far more than any loop of the
    program can take when it terminates (the longest is one step per distinct
    network, of which there are fewer than 2^256). *)
Definition fuel_doublings : nat := 300.

Definition while {S R : Type} (step : S -> res (S + R)) (s : S) : res R :=
  bind (loop step fuel_doublings s)
       (fun o => match o with inl _ => Diverge | inr r => Ret r end).

(** ** The environment the program runs in: everything that is not determined
    by the source text and the arguments.

    [overflow_checks]: the build profile (debug: on, release: off).
    [usize_bits]: the word size of the target, at least 16 (std's [usize]).
    [sort_by]: slice::sort_unstable_by / sort_unstable_by_key: some sorted
      permutation; which one among equal keys is unspecified.
    [hash_iter]: iteration order of std::collections::{HashSet,HashMap}: some
      permutation of the elements, unspecified. *)
Class Rust : Type := {
  overflow_checks : bool;
  usize_bits : N;
  sort_by : forall {T : Type}, (T -> T -> comparison) -> list T -> list T;
  hash_iter : forall {T : Type}, list T -> list T;
  usize_wide : 16 <= usize_bits;
  sort_by_perm : forall (T : Type) (cmp : T -> T -> comparison) (l : list T),
      Permutation (sort_by cmp l) l;
  sort_by_sorted : forall (T : Type) (cmp : T -> T -> comparison) (l : list T),
      (forall x y, cmp y x = CompOpp (cmp x y)) ->
      (forall x y z, cmp x y <> Gt -> cmp y z <> Gt -> cmp x z <> Gt) ->
      Sorted (fun x y => cmp x y <> Gt) (sort_by cmp l);
  hash_iter_perm : forall (T : Type) (l : list T), Permutation (hash_iter l) l
}.

(** ** Strings: the UTF-8 bytes of a Rust [str]/[String]. All delimiters the
    program looks for are ASCII, so searching bytes equals searching chars. *)
Definition str : Type := list ascii.
Definition lit (s : string) : str := list_ascii_of_string s.

(** [str::contains(char)]. *)
Definition contains_char (c : ascii) (s : str) : bool := existsb (Ascii.eqb c) s.

(** [str::split(char).collect()]: always at least one piece. *)
Fixpoint split_on (c : ascii) (s : str) : list str :=
  match s with
  | [] => [[]]
  | x :: s' =>
      if Ascii.eqb x c then [] :: split_on c s'
      else match split_on c s' with
           | [] => [[x]]
           | p :: ps => (x :: p) :: ps
           end
  end.

(** [[String]::join]. *)
Fixpoint join (sep : str) (l : list str) : str :=
  match l with
  | [] => []
  | [p] => p
  | p :: ps => p ++ sep ++ join sep ps
  end.

(** [str::starts_with] for a string pattern. *)
Fixpoint starts_with (p s : str) : bool :=
  match p, s with
  | [], _ => true
  | x :: p', y :: s' => Ascii.eqb x y && starts_with p' s'
  | _ :: _, [] => false
  end.

(** [str::starts_with(char)], [str::ends_with(char)]. *)
Definition starts_with_char (c : ascii) (s : str) : bool :=
  match s with x :: _ => Ascii.eqb x c | [] => false end.
Definition ends_with_char (c : ascii) (s : str) : bool := starts_with_char c (rev s).

(** [a == b] on strings. *)
Fixpoint str_eqb (a b : str) : bool :=
  match a, b with
  | [], [] => true
  | x :: a', y :: b' => Ascii.eqb x y && str_eqb a' b'
  | _, _ => false
  end.

(** ** core::num: parsing of unsigned integers ([u32::from_str],
    [u16::from_str_radix], [usize::from_str]). *)
Inductive int_error := IE_Empty | IE_InvalidDigit | IE_PosOverflow.

(** [char::to_digit(radix)]. *)
Definition to_digit (radix : N) (c : ascii) : option N :=
  let n := N_of_ascii c in
  let d := if (48 <=? n) && (n <=? 57) then Some (n - 48)
           else if (97 <=? n) && (n <=? 122) then Some (n - 97 + 10)
           else if (65 <=? n) && (n <=? 90) then Some (n - 65 + 10)
           else None in
  match d with
  | Some v => if v <? radix then Some v else None
  | None => None
  end.

(** The digit loop of [from_str_radix] with overflow checks: per digit, first
    the digit is validated, then multiplication and addition are checked. *)
Fixpoint parse_digits (radix max acc : N) (s : str) : result N int_error :=
  match s with
  | [] => ROk acc
  | c :: s' =>
      match to_digit radix c with
      | None => RErr IE_InvalidDigit
      | Some d =>
          if max <? acc * radix then RErr IE_PosOverflow
          else if max <? acc * radix + d then RErr IE_PosOverflow
          else parse_digits radix max (acc * radix + d) s'
      end
  end.

(** [from_str_radix] for an unsigned type with maximum [max]. *)
Definition parse_uint (radix max : N) (s : str) : result N int_error :=
  match s with
  | [] => RErr IE_Empty
  | c :: s' =>
      if Ascii.eqb c "+" || Ascii.eqb c "-" then
        match s' with
        | [] => RErr IE_InvalidDigit
        | _ => if Ascii.eqb c "+" then parse_digits radix max 0 s'
               else parse_digits radix max 0 s
        end
      else parse_digits radix max 0 s
  end.

Definition u8_max : N := 255.
Definition u16_max : N := 65535.
Definition u32_max : N := 4294967295.
Definition u64_max : N := 18446744073709551615.
Definition usize_max `{Rust} : N := 2 ^ usize_bits - 1.

(** ** core::fmt: formatting of unsigned integers ([{}], [{:x}]). *)
Definition digit_char (d : N) : ascii :=
  if d <? 10 then ascii_of_N (48 + d) else ascii_of_N (87 + d).

Fixpoint fmt_radix_loop (fuel : nat) (radix n : N) (acc : str) : str :=
  match fuel with
  | O => acc
  | Datatypes.S f =>
      let acc' := digit_char (n mod radix) :: acc in
      if n / radix =? 0 then acc' else fmt_radix_loop f radix (n / radix) acc'
  end.

(** The fuel, one more than the number of bits, is never exhausted. *)
Definition fmt_radix (radix n : N) : str :=
  fmt_radix_loop (Datatypes.S (N.size_nat n)) radix n [].
Definition fmt_dec (n : N) : str := fmt_radix 10 n.
Definition fmt_hex (n : N) : str := fmt_radix 16 n.

(** [{}] of a BigInt. *)
Definition fmt_Z (z : Z) : str :=
  match z with
  | Zneg p => "-"%char :: fmt_dec (Npos p)
  | _ => fmt_dec (Z.to_N z)
  end.

(** ** Integer primitives *)

(** [count_ones()]. *)
Fixpoint pos_popcount (p : positive) : N :=
  match p with
  | xH => 1
  | xO q => pos_popcount q
  | xI q => 1 + pos_popcount q
  end.
Definition popcount (n : N) : N :=
  match n with N0 => 0 | Npos p => pos_popcount p end.

(** [<<] on u32 / u64 (shift counts in the program are always in range): bits
    shifted out are lost. *)
Definition shl32 (x k : N) : N := N.shiftl x k mod 2 ^ 32.
Definition shl64 (x k : N) : N := N.shiftl x k mod 2 ^ 64.

(** [u64::wrapping_add], [wrapping_sub], [checked_add], [checked_sub]. *)
Definition wrapping_add64 (a b : N) : N := (a + b) mod 2 ^ 64.
Definition wrapping_sub64 (a b : N) : N := (a + (2 ^ 64 - b)) mod 2 ^ 64.
Definition checked_add64 (a b : N) : option N :=
  if u64_max <? a + b then None else Some (a + b).
Definition checked_sub64 (a b : N) : option N :=
  if a <? b then None else Some (a - b).

(** [a - b] on usize: panics or wraps on underflow. *)
Definition usize_sub `{Rust} (a b : N) : res N :=
  if a <? b
  then if overflow_checks then Panic else Ret (a + 2 ^ usize_bits - b)
  else Ret (a - b).

(** Unary minus on i32: overflows for i32::MIN only. *)
Definition i32_min : Z := (- 2 ^ 31)%Z.
Definition i32_max : Z := (2 ^ 31 - 1)%Z.
Definition i32_neg `{Rust} (x : Z) : res Z :=
  if (x =? i32_min)%Z
  then if overflow_checks then Panic else Ret i32_min
  else Ret (- x)%Z.

(** A concrete environment, for examples and to show the class is inhabited:
    insertion sort, insertion-ordered hash tables. *)
Fixpoint insert_by {T : Type} (cmp : T -> T -> comparison) (x : T) (l : list T) : list T :=
  match l with
  | [] => [x]
  | y :: l' => match cmp x y with
               | Gt => y :: insert_by cmp x l'
               | _ => x :: l
               end
  end.
Definition isort_by {T : Type} (cmp : T -> T -> comparison) (l : list T) : list T :=
  fold_right (insert_by cmp) [] l.
