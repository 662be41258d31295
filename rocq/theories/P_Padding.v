(** * P_Padding: padding with machine integers (C93) *)
From Verif Require Import RustBase Console Padding Demo Pf_Padding.

(** ** C93: padding, for all widths *)
Theorem C93_exact : forall (R : Rust) (text : str) (w : Z),
  (Z.of_nat (List.length text) <= isize_max)%Z -> (isize_min < w <= isize_max)%Z ->
  pad_isize text w =
    Ret (if (w <? 0)%Z then repeat " "%char (Z.to_nat (- w) - List.length text) ++ text
         else text ++ repeat " "%char (Z.to_nat w - List.length text)) /\
  pad_isize text w = Ret (pad text w).
Proof. exact c93_exact. Qed.
Print Assumptions C93_exact.
Example C93_exact_ex :
  @pad_isize debug_env (lit "abc") 5 = Ret (lit "abc  ") /\ @pad_isize narrow_env (lit "abc") (-5) = Ret (lit "  abc") /\
  @pad_isize debug_env (lit "abc") (-2) = Ret (lit "abc") /\ @isize_min debug_env = (-9223372036854775808)%Z /\ @isize_max narrow_env = 2147483647%Z.
Proof. ex. Qed.

(** The one width that has no opposite: a panic where arithmetic is checked; elsewhere
    the two overflows cancel out, unless there is nothing to pad. *)
Theorem C93_lowest : forall (R : Rust) (text : str),
  (Z.of_nat (List.length text) <= isize_max)%Z ->
  pad_isize text isize_min =
    match overflow_checks, text with
    | true, _ | _, [] => Panic
    | false, _ => Ret (repeat " "%char (2 ^ (N.to_nat usize_bits - 1) - List.length text) ++ text)
    end.
Proof. exact c93_lowest. Qed.
Print Assumptions C93_lowest.
Example C93_lowest_ex :
  @pad_isize debug_env (lit "abc") (-9223372036854775808) = Panic /\ @pad_isize release_env [] (-9223372036854775808) = Panic.
Proof. ex. Qed.
