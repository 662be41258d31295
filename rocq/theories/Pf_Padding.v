(** * Pf_Padding: proofs for P_Padding *)
From Verif Require Import RustBase Console Padding Pf_Show.
From Coq Require Import ZifyBool ZifyNat ZifyN.
Ltac Zify.zify_post_hook ::= idtac.

Lemma half_word `{R : Rust} : (2 ^ Z.of_N usize_bits = 2 * 2 ^ Z.of_N (usize_bits - 1) /\ 1 <= 2 ^ Z.of_N (usize_bits - 1))%Z.
Proof.
  pose proof usize_wide as W. split.
  - replace (Z.of_N usize_bits) with (Z.succ (Z.of_N (usize_bits - 1))) by lia. apply Z.pow_succ_r. lia.
  - change 1%Z with (2 ^ 0)%Z. apply Z.pow_le_mono_r; lia.
Qed.
Lemma fits `{R : Rust} z : (isize_min <= z <= isize_max)%Z -> isize_fit z = Ret z.
Proof.
  intros [L L']. unfold isize_fit. apply Z.leb_le in L, L'. now rewrite L, L'.
Qed.
Lemma bounds `{R : Rust} : (isize_min = - isize_max - 1 /\ 0 <= isize_max)%Z.
Proof. unfold isize_min, isize_max. destruct half_word as [_ H]. revert H. generalize (2 ^ Z.of_N (usize_bits - 1))%Z. intros. lia. Qed.

Lemma c93_exact : forall (R : Rust) (text : str) (w : Z),
  (Z.of_nat (List.length text) <= isize_max)%Z -> (isize_min < w <= isize_max)%Z ->
  pad_isize text w =
    Ret (if (w <? 0)%Z then repeat " "%char (Z.to_nat (- w) - List.length text) ++ text
         else text ++ repeat " "%char (Z.to_nat w - List.length text)) /\
  pad_isize text w = Ret (pad text w).
Proof.
  intros R text w Hl Hw. rewrite <- c61_padding. enough (E : pad_isize text w = Ret (pad text w)) by auto.
  destruct bounds as [B B']. unfold pad_isize, pad, isize_of, isize_neg, isize_sub.
  revert Hl Hw B B'. generalize (Z.of_nat (List.length text)) (Nat2Z.is_nonneg (List.length text)). intros len Hn Hl Hw B B'.
  assert (E : (len <=? isize_max)%Z = true) by now apply Z.leb_le. rewrite E. cbn [bind]. clear E.
  destruct (Z.ltb_spec 0 w) as [L|L]; [destruct (Z.ltb_spec len w) as [K|K]; [|reflexivity]|destruct (Z.ltb_spec w 0) as [L'|L']; [|reflexivity]].
  - rewrite fits by lia. reflexivity.
  - rewrite (fits (- len)) by lia. cbn [bind]. destruct (Z.ltb_spec w (- len)) as [K|K]; [|reflexivity].
    rewrite (fits (- w)) by lia. cbn [bind]. rewrite fits by lia. cbn [bind]. unfold usize_of.
    assert (E : (0 <=? - w - len)%Z = true) by (apply Z.leb_le; lia). rewrite E. reflexivity.
Qed.

Lemma c93_lowest : forall (R : Rust) (text : str),
  (Z.of_nat (List.length text) <= isize_max)%Z ->
  pad_isize text isize_min =
    match overflow_checks, text with
    | true, _ | _, [] => Panic
    | false, _ => Ret (repeat " "%char (2 ^ (N.to_nat usize_bits - 1) - List.length text) ++ text)
    end.
Proof.
  intros R text Hl. destruct bounds as [B B']. unfold pad_isize, isize_of, isize_neg, isize_sub. apply Z.leb_le in Hl. rewrite Hl. apply Z.leb_le in Hl. cbn [bind].
  assert (E1 : (0 <? isize_min)%Z = false) by (apply Z.ltb_ge; lia). assert (E2 : (isize_min <? 0)%Z = true) by (apply Z.ltb_lt; lia).
  rewrite E1, E2. rewrite (fits (- _)) by lia. cbn [bind]. assert (E3 : (isize_min <? - Z.of_nat (List.length text))%Z = true) by (apply Z.ltb_lt; lia).
  rewrite E3. unfold isize_fit at 1. assert (E4 : (- isize_min <=? isize_max)%Z = false) by (apply Z.leb_gt; lia). rewrite E4, Bool.andb_false_r.
  destruct overflow_checks eqn:Ho; [reflexivity|]. cbn [bind].
  assert (Em : ((- isize_min - isize_min) mod 2 ^ Z.of_N usize_bits + isize_min = isize_min)%Z).
  { replace (- isize_min - isize_min)%Z with (2 ^ Z.of_N usize_bits)%Z; [now rewrite Z_mod_same_full|].
    unfold isize_min. destruct half_word as [-> _]. lia. }
  rewrite Em. clear Em. destruct text as [|c text].
  - change (Z.of_nat (List.length [])) with 0%Z. rewrite Z.sub_0_r, fits by lia. cbn [bind]. unfold usize_of.
    assert (E5 : (0 <=? isize_min)%Z = false) by (apply Z.leb_gt; lia). now rewrite E5.
  - set (len := Z.of_nat (List.length (c :: text))) in *. assert (Hp : (1 <= len)%Z) by (unfold len; cbn [List.length]; lia).
    unfold isize_fit. rewrite Ho. assert (E5 : (isize_min <=? isize_min - len)%Z = false) by (apply Z.leb_gt; lia). rewrite E5. cbn [andb bind].
    assert (Em : ((isize_min - len - isize_min) mod 2 ^ Z.of_N usize_bits + isize_min = 2 ^ Z.of_N (usize_bits - 1) - len)%Z).
    { destruct half_word as [Hw H1]. replace (isize_min - len - isize_min)%Z with (2 ^ Z.of_N usize_bits - len + (-1) * 2 ^ Z.of_N usize_bits)%Z by lia.
      rewrite Z_mod_plus_full, Z.mod_small; unfold isize_min, isize_max in *; lia. }
    rewrite Em. unfold usize_of. assert (E6 : (0 <=? 2 ^ Z.of_N (usize_bits - 1) - len)%Z = true) by (apply Z.leb_le; unfold isize_max in Hl; lia).
    rewrite E6. cbn [bind]. do 3 f_equal. unfold len. rewrite Z2Nat.inj_sub by lia. rewrite Nat2Z.id. f_equal.
    rewrite <- (Nat2Z.id (2 ^ _)). f_equal. rewrite Nat2Z.inj_pow. f_equal. lia.
Qed.
