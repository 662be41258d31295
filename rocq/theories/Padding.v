(** * Padding: console.rs:30-51 with isize arithmetic as it is.

    Console.v computes with exact integers, which is what the program sees: it asks for
    no padding or for some to the right. Here are all values of [pad_to], down to
    [isize::MIN], whose negation does not fit in an isize. *)
From Verif Require Export RustBase Console.

Section Padding.
  Context `{Rust}.

  Definition isize_min : Z := (- 2 ^ Z.of_N (usize_bits - 1))%Z.
  Definition isize_max : Z := (2 ^ Z.of_N (usize_bits - 1) - 1)%Z.

  (** A result that does not fit panics or wraps. *)
  Definition isize_fit (z : Z) : res Z :=
    if ((isize_min <=? z) && (z <=? isize_max))%Z%bool then Ret z
    else if overflow_checks then Panic
    else Ret ((z - isize_min) mod 2 ^ Z.of_N usize_bits + isize_min)%Z.
  Definition isize_neg (z : Z) : res Z := isize_fit (- z).
  Definition isize_sub (a b : Z) : res Z := isize_fit (a - b).

  (** usize to isize and back, with [try_into().unwrap()]. *)
  Definition isize_of (n : nat) : res Z := if (Z.of_nat n <=? isize_max)%Z then Ret (Z.of_nat n) else Panic.
  Definition usize_of (z : Z) : res nat := if (0 <=? z)%Z then Ret (Z.to_nat z) else Panic.

  (** console.rs:30-51. The range [0..delta] is empty if [delta] is negative. *)
  Definition pad_isize (text : str) (pad_to : Z) : res str :=
    len <- isize_of (List.length text) ;;
    if (0 <? pad_to)%Z then
      if (len <? pad_to)%Z then
        delta <- isize_sub pad_to len ;;
        Ret (text ++ repeat " "%char (Z.to_nat delta))
      else Ret text
    else if (pad_to <? 0)%Z then
      neg_len <- isize_neg len ;;
      if (pad_to <? neg_len)%Z then
        neg <- isize_neg pad_to ;;
        delta <- isize_sub neg len ;;
        capacity <- usize_of delta ;;
        Ret (repeat " "%char (Z.to_nat delta) ++ text)
      else Ret text
    else Ret text.
End Padding.
