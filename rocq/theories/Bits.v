(** * Bits: facts about numbers as bit lists (most significant bit first) *)
From Verif Require Import RustBase BitManip Spec.
From Coq Require Import ZifyBool ZifyNat ZifyN.
Ltac Zify.zify_post_hook ::= Z.div_mod_to_equations.

Fixpoint bval (l : list bool) : N :=
  match l with
  | [] => 0
  | b :: l' => N.b2n b * 2 ^ N.of_nat (List.length l') + bval l'
  end.

Lemma pow2_pos n : 0 < 2 ^ n.
Proof. apply N.neq_0_lt_0. now apply N.pow_nonzero. Qed.

Lemma pow2_S n : 2 ^ N.of_nat (S n) = 2 * 2 ^ N.of_nat n.
Proof. rewrite Nat2N.inj_succ. apply N.pow_succ_r'. Qed.

Lemma bval_lt l : bval l < 2 ^ N.of_nat (List.length l).
Proof.
  induction l as [|b l IH]; [reflexivity|].
  cbn [bval List.length]. rewrite pow2_S. destruct b; cbn [N.b2n]; lia.
Qed.

Lemma bval_app l1 l2 : bval (l1 ++ l2) = bval l1 * 2 ^ N.of_nat (List.length l2) + bval l2.
Proof.
  induction l1 as [|b l1 IH]; cbn [app bval]; [lia|].
  rewrite IH, app_length, Nat2N.inj_add, N.pow_add_r. lia.
Qed.

Lemma bval_inj l1 l2 : List.length l1 = List.length l2 -> bval l1 = bval l2 -> l1 = l2.
Proof.
  revert l2; induction l1 as [|b l1 IH]; intros [|c l2]; cbn [List.length bval]; try lia; [reflexivity|].
  intros Hl Hv. injection Hl as Hl. rewrite Hl in Hv.
  pose proof (bval_lt l1). pose proof (bval_lt l2). rewrite Hl in *.
  destruct b, c; cbn [N.b2n] in Hv; try lia; f_equal; apply IH; lia.
Qed.

Lemma bval_repeat_false n : bval (repeat false n) = 0.
Proof. induction n; cbn [repeat bval N.b2n]; [reflexivity|]. rewrite IHn. lia. Qed.

Lemma bval_repeat_true n : bval (repeat true n) = 2 ^ N.of_nat n - 1.
Proof.
  induction n; [reflexivity|]. cbn [repeat bval N.b2n]. rewrite IHn, repeat_length, pow2_S.
  pose proof (pow2_pos (N.of_nat n)). lia.
Qed.

Lemma bval_zero l : bval l = 0 -> l = repeat false (List.length l).
Proof.
  intros E. apply bval_inj; [now rewrite repeat_length|]. now rewrite bval_repeat_false.
Qed.

Lemma bval_max l : bval l = 2 ^ N.of_nat (List.length l) - 1 -> l = repeat true (List.length l).
Proof.
  intros E. apply bval_inj; [now rewrite repeat_length|]. now rewrite bval_repeat_true.
Qed.

(** ** nbits *)

Lemma nbits_length w n : List.length (nbits w n) = w.
Proof. unfold nbits. now rewrite map_length, seq_length. Qed.

Lemma nbits_S w n : nbits (S w) n = N.testbit n (N.of_nat w) :: nbits w n.
Proof.
  unfold nbits. cbn [seq map]. f_equal; [f_equal; lia|].
  rewrite <- seq_shift, map_map. apply map_ext_in. intros i Hi. apply in_seq in Hi.
  f_equal. lia.
Qed.

Lemma bval_nbits_mod w n : bval (nbits w n) = n mod 2 ^ N.of_nat w.
Proof.
  induction w as [|w IH].
  - cbn. now rewrite N.mod_1_r.
  - rewrite nbits_S. cbn [bval]. rewrite nbits_length, IH, pow2_S.
    rewrite N.testbit_spec'.
    rewrite (N.mul_comm 2). pose proof (pow2_pos (N.of_nat w)).
    rewrite N.mod_mul_r by lia. lia.
Qed.

Lemma bval_nbits w n : n < 2 ^ N.of_nat w -> bval (nbits w n) = n.
Proof. intros. rewrite bval_nbits_mod. now apply N.mod_small. Qed.

Lemma nbits_bval l w : List.length l = w -> nbits w (bval l) = l.
Proof.
  intros <-. apply bval_inj; [apply nbits_length|].
  apply bval_nbits, bval_lt.
Qed.

Lemma nbits_inj w a b : a < 2 ^ N.of_nat w -> b < 2 ^ N.of_nat w -> nbits w a = nbits w b -> a = b.
Proof. intros Ha Hb E. rewrite <- (bval_nbits w a), <- (bval_nbits w b) by assumption. now rewrite E. Qed.

Lemma nbits_mod w n k : N.of_nat w <= k -> nbits w (n mod 2 ^ k) = nbits w n.
Proof.
  intros. unfold nbits. apply map_ext_in. intros i Hi. apply in_seq in Hi.
  apply N.mod_pow2_bits_low. lia.
Qed.

Lemma nbits_app w1 w2 n :
  nbits (w1 + w2) n = nbits w1 (n / 2 ^ N.of_nat w2) ++ nbits w2 n.
Proof.
  induction w1 as [|w1 IH]; [reflexivity|].
  cbn [Nat.add]. rewrite !nbits_S, IH. cbn [app]. f_equal.
  rewrite N.div_pow2_bits. f_equal. lia.
Qed.

Lemma nth_error_nbits w n i :
  (i < w)%nat -> nth_error (nbits w n) i = Some (N.testbit n (N.of_nat (w - 1 - i))).
Proof.
  intros. unfold nbits. rewrite nth_error_map.
  rewrite (nth_error_nth' _ 0%nat) by now rewrite seq_length.
  now rewrite seq_nth.
Qed.

Lemma nth_nbits w n i d :
  (i < w)%nat -> nth i (nbits w n) d = N.testbit n (N.of_nat (w - 1 - i)).
Proof. intros. apply nth_error_nth, nth_error_nbits. assumption. Qed.

Lemma testbit_bval l i :
  N.testbit (bval l) i =
  if i <? N.of_nat (List.length l) then nth (List.length l - 1 - N.to_nat i) l false else false.
Proof.
  destruct (N.ltb_spec i (N.of_nat (List.length l))).
  - pose proof (nth_nbits (List.length l) (bval l) (List.length l - 1 - N.to_nat i) false) as E.
    rewrite nbits_bval in E by reflexivity. rewrite E by lia. f_equal. lia.
  - pose proof (bval_lt l).
    destruct (N.eq_dec (bval l) 0) as [->|]; [apply N.bits_0|].
    apply N.bits_above_log2. apply N.log2_lt_pow2; [lia|].
    eapply N.lt_le_trans; [eassumption|]. now apply N.pow_le_mono_r.
Qed.

Lemma testbit_high n w i : n < 2 ^ w -> w <= i -> N.testbit n i = false.
Proof.
  intros. destruct (N.eq_dec n 0) as [->|]; [apply N.bits_0|].
  apply N.bits_above_log2. apply N.log2_lt_pow2; [lia|].
  eapply N.lt_le_trans; [eassumption|]. now apply N.pow_le_mono_r.
Qed.

Lemma lt_pow2_bits n w : (forall i, w <= i -> N.testbit n i = false) -> n < 2 ^ w.
Proof.
  intros Hb. destruct (N.eq_dec n 0) as [->|]; [apply pow2_pos|].
  apply N.log2_lt_pow2; [lia|].
  destruct (N.le_gt_cases w (N.log2 n)); [|assumption].
  specialize (Hb _ H). rewrite N.bit_log2 in Hb by assumption. discriminate.
Qed.

(** ** Pointwise operations *)

Fixpoint map2 {X Y Z} (f : X -> Y -> Z) (l : list X) (l' : list Y) : list Z :=
  match l, l' with
  | x :: l, y :: l' => f x y :: map2 f l l'
  | _, _ => []
  end.

Lemma map2_length {X Y Z} (f : X -> Y -> Z) l l' :
  List.length l = List.length l' -> List.length (map2 f l l') = List.length l.
Proof. revert l'; induction l; intros [|]; cbn; try lia. intros. rewrite IHl; lia. Qed.

Lemma nbits_map2 f op w a b :
  (forall x y i, N.testbit (op x y) i = f (N.testbit x i) (N.testbit y i)) ->
  nbits w (op a b) = map2 f (nbits w a) (nbits w b).
Proof.
  intros Hop. induction w; [reflexivity|]. rewrite !nbits_S. cbn. now rewrite Hop, IHw.
Qed.

Lemma nbits_land w a b : nbits w (N.land a b) = map2 andb (nbits w a) (nbits w b).
Proof. apply nbits_map2. apply N.land_spec. Qed.
Lemma nbits_lor w a b : nbits w (N.lor a b) = map2 orb (nbits w a) (nbits w b).
Proof. apply nbits_map2. apply N.lor_spec. Qed.
Lemma nbits_lxor w a b : nbits w (N.lxor a b) = map2 xorb (nbits w a) (nbits w b).
Proof. apply nbits_map2. apply N.lxor_spec. Qed.

Lemma nbits_zero w : nbits w 0 = repeat false w.
Proof. induction w; [reflexivity|]. rewrite nbits_S, IHw, N.bits_0. reflexivity. Qed.

Lemma nbits_ones w : nbits w (2 ^ N.of_nat w - 1) = repeat true w.
Proof.
  apply bval_inj. now rewrite nbits_length, repeat_length.
  rewrite bval_nbits, bval_repeat_true; [reflexivity|]. pose proof (pow2_pos (N.of_nat w)). lia.
Qed.

Lemma map2_xorb_true l : map2 xorb l (repeat true (List.length l)) = map negb l.
Proof. induction l as [|[] l IH]; cbn; rewrite ?IH; reflexivity. Qed.

Lemma nbits_xor_ones w a : nbits w (N.lxor a (2 ^ N.of_nat w - 1)) = map negb (nbits w a).
Proof.
  rewrite nbits_lxor, nbits_ones. rewrite <- (nbits_length w a) at 2. apply map2_xorb_true.
Qed.

Lemma bval_negb l : bval (map negb l) = 2 ^ N.of_nat (List.length l) - 1 - bval l.
Proof.
  induction l as [|b l IH]; [reflexivity|].
  cbn [map bval List.length]. rewrite IH, map_length, pow2_S. pose proof (bval_lt l).
  pose proof (pow2_pos (N.of_nat (List.length l))).
  destruct b; cbn [negb N.b2n]; lia.
Qed.

(** ** Counting *)

Definition ctrue (l : list bool) : nat := List.length (filter (fun b => b) l).
Definition cfalse (l : list bool) : nat := List.length (filter negb l).

Lemma ctrue_cons b l : ctrue (b :: l) = ((if b then 1 else 0) + ctrue l)%nat.
Proof. unfold ctrue. destruct b; reflexivity. Qed.
Lemma cfalse_cons b l : cfalse (b :: l) = ((if b then 0 else 1) + cfalse l)%nat.
Proof. unfold cfalse. destruct b; reflexivity. Qed.
Lemma ctrue_cfalse l : (ctrue l + cfalse l)%nat = List.length l.
Proof. induction l as [|[] l IH]; [reflexivity| |]; rewrite ctrue_cons, cfalse_cons; cbn [List.length]; lia. Qed.
Lemma ctrue_app l1 l2 : ctrue (l1 ++ l2) = (ctrue l1 + ctrue l2)%nat.
Proof. unfold ctrue. now rewrite filter_app, app_length. Qed.
Lemma cfalse_app l1 l2 : cfalse (l1 ++ l2) = (cfalse l1 + cfalse l2)%nat.
Proof. unfold cfalse. now rewrite filter_app, app_length. Qed.
Lemma ctrue_repeat_true n : ctrue (repeat true n) = n.
Proof. induction n; [reflexivity|]. cbn [repeat]. rewrite ctrue_cons. lia. Qed.
Lemma ctrue_repeat_false n : ctrue (repeat false n) = 0%nat.
Proof. induction n; [reflexivity|]. cbn [repeat]. rewrite ctrue_cons. lia. Qed.
Lemma cfalse_negb l : cfalse (map negb l) = ctrue l.
Proof. induction l as [|[] l IH]; [reflexivity| |]; cbn [map negb]; rewrite cfalse_cons, ctrue_cons; lia. Qed.
Lemma ctrue_negb l : ctrue (map negb l) = cfalse l.
Proof. induction l as [|[] l IH]; [reflexivity| |]; cbn [map negb]; rewrite cfalse_cons, ctrue_cons; lia. Qed.

Lemma popcount_double n : popcount (2 * n) = popcount n.
Proof. now destruct n. Qed.
Lemma popcount_succ_double n : popcount (2 * n + 1) = 1 + popcount n.
Proof. now destruct n. Qed.

Lemma bval_snoc l b : bval (l ++ [b]) = 2 * bval l + N.b2n b.
Proof. rewrite bval_app. cbn [List.length bval]. change (2 ^ N.of_nat 0) with 1. change (2 ^ N.of_nat 1) with 2. lia. Qed.

Lemma popcount_bval l : popcount (bval l) = N.of_nat (ctrue l).
Proof.
  induction l as [|b l IH] using rev_ind; [reflexivity|].
  rewrite bval_snoc, ctrue_app, ctrue_cons. change (ctrue []) with 0%nat.
  destruct b; cbn [N.b2n].
  - rewrite popcount_succ_double, IH. lia.
  - rewrite N.add_0_r, popcount_double, IH. lia.
Qed.

Lemma popcount_nbits w n : n < 2 ^ N.of_nat w -> popcount n = N.of_nat (ctrue (nbits w n)).
Proof. intros. rewrite <- popcount_bval, bval_nbits; auto. Qed.
