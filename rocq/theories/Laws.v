(** * Laws: what the generic code needs to know about an address type, and the
    proof that both families satisfy it *)
From Verif Require Import RustBase Addr BitManip Cidr Spec Bits Weave Bytes.
From Coq Require Import ZifyBool ZifyNat ZifyN.
Ltac Zify.zify_post_hook ::= Z.div_mod_to_equations.

Definition bts {A} `{IpAddress A} (a : A) : list bool := bytes_to_bits (to_bytes a).
Definition v {A} `{IpAddress A} (a : A) : N := bval (bts a).

Class Laws (A : Type) `{IpAddress A} : Type := {
  nby : nat;
  okA : A -> Prop;
  law_nby : (1 <= nby <= 16)%nat;
  law_byte_count : forall a, byte_count a = nby;
  law_len : forall a, List.length (to_bytes a) = nby;
  law_u8 : forall a, u8s (to_bytes a);
  law_from_to : forall a, okA a -> from_bytes (to_bytes a) = Some a;
  law_to_from : forall bs, List.length bs = nby -> u8s bs ->
      exists a, from_bytes bs = Some a /\ okA a /\ to_bytes a = bs;
  law_from_none : forall bs, List.length bs <> nby -> from_bytes bs = None;
  law_neg : forall a, okA a -> okA (bitwise_negate a) /\ bts (bitwise_negate a) = map negb (bts a);
  law_and : forall a b, okA a -> okA b -> okA (band a b) /\ bts (band a b) = map2 andb (bts a) (bts b);
  law_or : forall a b, okA a -> okA b -> okA (bor a b) /\ bts (bor a b) = map2 orb (bts a) (bts b);
  law_xor : forall a b, okA a -> okA b -> okA (bxor a b) /\ bts (bxor a b) = map2 xorb (bts a) (bts b);
  law_cmp : forall a b, okA a -> okA b -> acmp a b = N.compare (v a) (v b);
  law_eqb : forall a b, aeqb a b = true <-> a = b;
  law_ones : forall a, okA a -> count_ones a = N.of_nat (ctrue (bts a));
  law_zeros : forall a, okA a -> count_zeros a = N.of_nat (cfalse (bts a));
  law_add : forall a b, okA a -> okA b ->
      match add_addr a b with
      | Some c => okA c /\ v c = v a + v b
      | None => 2 ^ N.of_nat (8 * nby) <= v a + v b
      end;
  law_add_offset : forall a o, okA a -> (0 <= o <= i32_max)%Z ->
      exists r, add_offset a o = Ret r /\
      match r with
      | Some c => okA c /\ v c = v a + Z.to_N o
      | None => 2 ^ N.of_nat (8 * nby) <= v a + Z.to_N o
      end;
  law_sub_1 : forall a, okA a -> N.odd (v a) = true ->
      exists c, subtract_offset a 1 = Ret (Some c) /\ okA c /\ v c = v a - 1
}.

(** ** Arithmetic helpers *)

Lemma lor_add a b k : a mod 2 ^ k = 0 -> b < 2 ^ k -> N.lor a b = a + b.
Proof.
  intros Ha Hb.
  assert (E : N.land a b = 0).
  { apply N.bits_inj. intros i. rewrite N.land_spec, N.bits_0.
    destruct (N.lt_ge_cases i k) as [Hi|Hi].
    - rewrite <- (N.mod_pow2_bits_low a k i Hi), Ha, N.bits_0. reflexivity.
    - rewrite (testbit_high b k i Hb Hi). apply andb_false_r. }
  rewrite N.add_nocarry_lxor by exact E. symmetry. now apply N.lxor_lor.
Qed.

Lemma nbits_byte n k : nbits 8 (N.land (N.shiftr n k) 255) = nbits 8 (n / 2 ^ k).
Proof.
  change 255 with (N.ones 8). rewrite N.land_ones, N.shiftr_div_pow2. now apply nbits_mod.
Qed.

Lemma land_255_lt n : N.land n 255 < 256.
Proof.
  change 255 with (N.ones 8). rewrite N.land_ones. apply N.mod_lt. discriminate.
Qed.

Lemma lop_lt op f w a b :
  (forall x y i, N.testbit (op x y) i = f (N.testbit x i) (N.testbit y i)) ->
  f false false = false -> a < 2 ^ w -> b < 2 ^ w -> op a b < 2 ^ w.
Proof.
  intros Hop Hf Ha Hb. apply lt_pow2_bits. intros i Hi.
  rewrite Hop, (testbit_high a w i Ha Hi), (testbit_high b w i Hb Hi). exact Hf.
Qed.
Lemma land_lt w a b : a < 2 ^ w -> b < 2 ^ w -> N.land a b < 2 ^ w.
Proof. apply (lop_lt _ andb); [apply N.land_spec|reflexivity]. Qed.
Lemma lor_lt w a b : a < 2 ^ w -> b < 2 ^ w -> N.lor a b < 2 ^ w.
Proof. apply (lop_lt _ orb); [apply N.lor_spec|reflexivity]. Qed.
Lemma lxor_lt w a b : a < 2 ^ w -> b < 2 ^ w -> N.lxor a b < 2 ^ w.
Proof. apply (lop_lt _ xorb); [apply N.lxor_spec|reflexivity]. Qed.

Lemma map2_app {X Y Z} (f : X -> Y -> Z) l1 l2 l1' l2' :
  List.length l1 = List.length l1' ->
  map2 f (l1 ++ l2) (l1' ++ l2') = map2 f l1 l1' ++ map2 f l2 l2'.
Proof.
  revert l1'; induction l1 as [|x l1 IH]; intros [|y l1'] E; try discriminate; [reflexivity|].
  injection E as E. cbn. now rewrite IH.
Qed.

(** ** IPv4 *)
Lemma v4_bts (a : ipv4) : bytes_to_bits (v4_to_bytes a) = nbits 32 (addr_value a).
Proof.
  unfold v4_to_bytes. rewrite !bytes_to_bits_cons, !nbits_byte. cbn [bytes_to_bits flat_map].
  change 32%nat with (8 + (8 + (8 + (8 + 0))))%nat. rewrite !nbits_app.
  reflexivity.
Qed.

Lemma v4_u8 a : u8s (v4_to_bytes a).
Proof. repeat (constructor; [apply land_255_lt|]). constructor. Qed.

Lemma v4_from_bytes_be bs :
  List.length bs = 4%nat -> u8s bs -> v4_from_bytes bs = Some (Ipv4 (be_value bs)).
Proof.
  intros Hl Hb. do 4 (destruct bs as [|? bs]; [discriminate|]). destruct bs; [|discriminate].
  repeat match goal with H : u8s _ |- _ => inversion H; clear H; subst
                       | H : Forall _ _ |- _ => inversion H; clear H; subst end.
  unfold v4_from_bytes, shl32. rewrite !N.shiftl_mul_pow2.
  change (2 ^ 24) with 16777216. change (2 ^ 16) with 65536. change (2 ^ 8) with 256.
  change (2 ^ 0) with 1. change (2 ^ 32) with 4294967296.
  do 2 f_equal.
  rewrite !N.mod_small by lia.
  rewrite (lor_add (n * 16777216) (n0 * 65536) 24) by (change (2 ^ 24) with 16777216; lia).
  rewrite (lor_add _ (n1 * 256) 16) by (change (2 ^ 16) with 65536; lia).
  rewrite (lor_add _ (n2 * 1) 8) by (change (2 ^ 8) with 256; lia).
  unfold be_value. cbn [fold_left]. lia.
Qed.

Lemma v4_v (a : ipv4) : v a = addr_value a mod 2 ^ 32.
Proof. unfold v, bts. cbn [to_bytes ipv4_ops]. rewrite v4_bts, bval_nbits_mod. reflexivity. Qed.

Lemma v4_v_ok (a : ipv4) : addr_value a < 2 ^ 32 -> v a = addr_value a.
Proof. intros. rewrite v4_v. now apply N.mod_small. Qed.

Lemma v4_add_internal_spec x o :
  match v4_add_internal x o with
  | Some c => Z.of_N (addr_value c) = (x + o)%Z /\ addr_value c < 2 ^ 32
  | None => (x + o < 0 \/ 2 ^ 32 <= x + o)%Z
  end.
Proof.
  unfold v4_add_internal. destruct (Z.ltb_spec (x + o) 0); [left; assumption|].
  destruct (Z.ltb_spec 0xFFFFFFFF (x + o)); [right|]; cbn [addr_value].
  - change (2 ^ 32)%Z with 4294967296%Z. lia.
  - change (2 ^ 32) with 4294967296. lia.
Qed.

#[global] Instance ipv4_laws : Laws ipv4.
Proof.
  refine {| nby := 4; okA := fun a => addr_value a < 2 ^ 32 |}.
  - lia.
  - reflexivity.
  - reflexivity.
  - exact v4_u8.
  - intros a Ha. cbn [from_bytes to_bytes ipv4_ops].
    rewrite v4_from_bytes_be by (reflexivity || apply v4_u8).
    rewrite <- bval_bytes by apply v4_u8. rewrite v4_bts, bval_nbits by assumption.
    now destruct a.
  - intros bs Hl Hb. exists (Ipv4 (be_value bs)). cbn [from_bytes to_bytes ipv4_ops].
    assert (Hlt : be_value bs < 2 ^ 32).
    { pose proof (be_value_lt bs Hb) as H. rewrite Hl in H. exact H. }
    split; [now apply v4_from_bytes_be|]. split; [exact Hlt|].
    apply bytes_to_bits_inj; [apply v4_u8|assumption|].
    rewrite v4_bts. cbn [addr_value]. rewrite <- bval_bytes by assumption.
    apply nbits_bval. rewrite bytes_to_bits_length. lia.
  - intros bs Hl. cbn. do 4 (destruct bs as [|? bs]; [reflexivity|]).
    destruct bs; [contradiction|reflexivity].
  - intros a Ha. cbn [bitwise_negate to_bytes ipv4_ops]. unfold bts. cbn [to_bytes ipv4_ops].
    rewrite !v4_bts. cbn [v4_negate addr_value]. split.
    + apply lxor_lt; [assumption|reflexivity].
    + apply (nbits_xor_ones 32).
  - intros a b Ha Hb. unfold bts. cbn [band bor bxor to_bytes ipv4_ops]. rewrite !v4_bts. cbn [v4_and v4_or v4_xor addr_value]. split; [now apply land_lt|].
    apply (nbits_land 32).
  - intros a b Ha Hb. unfold bts. cbn [band bor bxor to_bytes ipv4_ops]. rewrite !v4_bts. cbn [v4_and v4_or v4_xor addr_value]. split; [now apply lor_lt|].
    apply (nbits_lor 32).
  - intros a b Ha Hb. unfold bts. cbn [band bor bxor to_bytes ipv4_ops]. rewrite !v4_bts. cbn [v4_and v4_or v4_xor addr_value]. split; [now apply lxor_lt|].
    apply (nbits_lxor 32).
  - intros a b Ha Hb. now rewrite !v4_v_ok.
  - intros [x] [y]. cbn. unfold v4_eqb. cbn. rewrite N.eqb_eq. split; congruence.
  - intros a Ha. cbn [count_ones ipv4_ops]. unfold v4_count_ones, bts. cbn [to_bytes ipv4_ops]. rewrite v4_bts.
    now apply (popcount_nbits 32).
  - intros a Ha. cbn [count_zeros ipv4_ops]. unfold v4_count_zeros, bts. cbn [to_bytes ipv4_ops]. rewrite v4_bts.
    rewrite (popcount_nbits 32) by assumption.
    pose proof (ctrue_cfalse (nbits 32 (addr_value a))) as H. rewrite nbits_length in H. lia.
  - intros a b Ha Hb. cbn [add_addr ipv4_ops]. unfold v4_add_addr. rewrite !v4_v_ok by assumption.
    pose proof (v4_add_internal_spec (Z.of_N (addr_value a)) (Z.of_N (addr_value b))) as H.
    destruct (v4_add_internal _ _) as [c|].
    + destruct H as [H1 H2]. split; [assumption|]. rewrite v4_v_ok by assumption. lia.
    + change (2 ^ N.of_nat (8 * 4)) with 4294967296. change (2 ^ 32)%Z with 4294967296%Z in H. lia.
  - intros a o Ha Ho. cbn [add_offset ipv4_ops]. eexists. split; [reflexivity|].
    unfold v4_add_offset. rewrite !v4_v_ok by assumption.
    pose proof (v4_add_internal_spec (Z.of_N (addr_value a)) o) as H.
    destruct (v4_add_internal _ _) as [c|].
    + destruct H as [H1 H2]. split; [assumption|]. rewrite v4_v_ok by assumption. lia.
    + change (2 ^ N.of_nat (8 * 4)) with 4294967296. change (2 ^ 32)%Z with 4294967296%Z in H. lia.
  - intros a Ha Ho. cbn [subtract_offset ipv4_ops]. unfold v4_subtract_offset.
    rewrite v4_v_ok in * by assumption.
    pose proof (v4_add_internal_spec (Z.of_N (addr_value a)) (- (1))) as H.
    assert (addr_value a <> 0) by (intros E; rewrite E in Ho; discriminate).
    destruct (v4_add_internal _ _) as [c|].
    + destruct H as [H1 H2]. exists c. split; [reflexivity|]. split; [assumption|].
      rewrite v4_v_ok by assumption. lia.
    + change (2 ^ 32)%Z with 4294967296%Z in H. change (2 ^ 32) with 4294967296 in Ha. lia.
Defined.

(** ** IPv6 *)
Lemma half_bts n :
  bytes_to_bits [N.land (N.shiftr n 56) 0xFF; N.land (N.shiftr n 48) 0xFF;
                 N.land (N.shiftr n 40) 0xFF; N.land (N.shiftr n 32) 0xFF;
                 N.land (N.shiftr n 24) 0xFF; N.land (N.shiftr n 16) 0xFF;
                 N.land (N.shiftr n 8) 0xFF; N.land (N.shiftr n 0) 0xFF] = nbits 64 n.
Proof.
  rewrite !bytes_to_bits_cons, !nbits_byte. cbn [bytes_to_bits flat_map].
  change 64%nat with (8 + (8 + (8 + (8 + (8 + (8 + (8 + (8 + 0))))))))%nat. rewrite !nbits_app.
  reflexivity.
Qed.

Lemma bytes_to_bits_app l1 l2 : bytes_to_bits (l1 ++ l2) = bytes_to_bits l1 ++ bytes_to_bits l2.
Proof. unfold bytes_to_bits. apply flat_map_app. Qed.

Lemma v6_bts (a : ipv6) :
  bytes_to_bits (v6_to_bytes a) = nbits 64 (top_half a) ++ nbits 64 (bottom_half a).
Proof.
  rewrite <- !half_bts, <- bytes_to_bits_app. reflexivity.
Qed.

Lemma v6_u8 a : u8s (v6_to_bytes a).
Proof. repeat (constructor; [apply land_255_lt|]). constructor. Qed.

Lemma v6_half_be b0 b1 b2 b3 b4 b5 b6 b7 :
  u8s [b0; b1; b2; b3; b4; b5; b6; b7] ->
  v6_half b0 b1 b2 b3 b4 b5 b6 b7 = be_value [b0; b1; b2; b3; b4; b5; b6; b7].
Proof.
  intros Hb.
  repeat match goal with H : u8s _ |- _ => inversion H; clear H; subst
                       | H : Forall _ _ |- _ => inversion H; clear H; subst end.
  unfold v6_half, shl64. rewrite !N.shiftl_mul_pow2.
  change (2 ^ 56) with 72057594037927936. change (2 ^ 48) with 281474976710656.
  change (2 ^ 40) with 1099511627776. change (2 ^ 32) with 4294967296.
  change (2 ^ 24) with 16777216. change (2 ^ 16) with 65536. change (2 ^ 8) with 256.
  change (2 ^ 0) with 1. change (2 ^ 64) with 18446744073709551616.
  rewrite !N.mod_small by lia.
  rewrite (lor_add (b0 * _) (b1 * _) 56) by (change (2 ^ 56) with 72057594037927936; lia).
  rewrite (lor_add _ (b2 * _) 48) by (change (2 ^ 48) with 281474976710656; lia).
  rewrite (lor_add _ (b3 * _) 40) by (change (2 ^ 40) with 1099511627776; lia).
  rewrite (lor_add _ (b4 * _) 32) by (change (2 ^ 32) with 4294967296; lia).
  rewrite (lor_add _ (b5 * _) 24) by (change (2 ^ 24) with 16777216; lia).
  rewrite (lor_add _ (b6 * _) 16) by (change (2 ^ 16) with 65536; lia).
  rewrite (lor_add _ (b7 * _) 8) by (change (2 ^ 8) with 256; lia).
  unfold be_value. cbn [fold_left]. lia.
Qed.

Lemma list16 {T} (l : list T) :
  List.length l = 16%nat -> exists l1 l2, l = l1 ++ l2 /\ List.length l1 = 8%nat /\ List.length l2 = 8%nat.
Proof.
  intros H. exists (firstn 8 l), (skipn 8 l). rewrite firstn_skipn, firstn_length, skipn_length. repeat split; lia.
Qed.

Lemma v6_from_bytes_be l1 l2 :
  List.length l1 = 8%nat -> List.length l2 = 8%nat -> u8s l1 -> u8s l2 ->
  v6_from_bytes (l1 ++ l2) = Some (Ipv6 (be_value l1) (be_value l2)).
Proof.
  intros H1 H2 U1 U2.
  destruct (list8 l1 H1) as (b0 & b1 & b2 & b3 & b4 & b5 & b6 & b7 & ->).
  destruct (list8 l2 H2) as (c0 & c1 & c2 & c3 & c4 & c5 & c6 & c7 & ->).
  rewrite <- !v6_half_be by assumption. reflexivity.
Qed.

Lemma v6_v `{Rust} (a : ipv6) :
  v a = (top_half a mod 2 ^ 64) * 2 ^ 64 + bottom_half a mod 2 ^ 64.
Proof.
  unfold v, bts. cbn [to_bytes ipv6_ops]. rewrite v6_bts, bval_app, !bval_nbits_mod, nbits_length.
  reflexivity.
Qed.

Lemma v6_v_ok `{Rust} (a : ipv6) :
  top_half a < 2 ^ 64 -> bottom_half a < 2 ^ 64 -> v a = top_half a * 2 ^ 64 + bottom_half a.
Proof. intros. rewrite v6_v, !N.mod_small; auto. Qed.

Lemma v6_add_internal_spec at_ ab ot ob :
  at_ < 2 ^ 64 -> ab < 2 ^ 64 -> ot < 2 ^ 64 -> ob < 2 ^ 64 ->
  match v6_add_internal at_ ab ot ob with
  | Some c => (top_half c < 2 ^ 64 /\ bottom_half c < 2 ^ 64) /\
              top_half c * 2 ^ 64 + bottom_half c = (at_ * 2 ^ 64 + ab) + (ot * 2 ^ 64 + ob)
  | None => 2 ^ 128 <= (at_ * 2 ^ 64 + ab) + (ot * 2 ^ 64 + ob)
  end.
Proof.
  change (2 ^ 128) with (2 ^ 64 * 2 ^ 64).
  unfold v6_add_internal, wrapping_add64, checked_add64, u64_max.
  change (2 ^ 64) with 18446744073709551616. intros.
  destruct (((ab + ob) mod _ <? ab) || _) eqn:Ec;
    destruct (N.ltb_spec 18446744073709551615 (at_ + ot)).
  - lia.
  - destruct (N.ltb_spec 18446744073709551615 (at_ + ot + 1)); cbn [top_half bottom_half]; lia.
  - lia.
  - cbn [top_half bottom_half]; lia.
Qed.

(** Subtraction is right when no borrow from the top half is needed, or when
    the top halves are equal. *)
Lemma v6_sub_internal_spec at_ ab ot ob :
  at_ < 2 ^ 64 -> ab < 2 ^ 64 -> ot < 2 ^ 64 -> ob < 2 ^ 64 ->
  v6_sub_internal at_ ab ot ob =
    if at_ <? ot then None
    else if ab <? ob then
      if at_ =? ot then None
      else Some (Ipv6 (at_ - ot) (ab + 2 ^ 64 - ob))
    else Some (Ipv6 (at_ - ot) (ab - ob)).
Proof.
  unfold v6_sub_internal, wrapping_sub64, checked_sub64.
  change (2 ^ 64) with 18446744073709551616. intros.
  destruct (N.ltb_spec at_ ot); [reflexivity|].
  destruct (N.ltb_spec ab ob); destruct (N.eqb_spec at_ ot); cbn [orb andb].
  - subst. rewrite N.sub_diag. reflexivity.
  - do 2 f_equal. rewrite N.mod_small by lia. lia.
  - do 2 f_equal. subst. rewrite <- (N.mod_add _ 0 18446744073709551616) by lia.
    replace (ab + (18446744073709551616 - ob) + 0 * 18446744073709551616)
      with ((ab - ob) + 1 * 18446744073709551616) by lia.
    rewrite N.mod_add by lia. apply N.mod_small. lia.
  - do 2 f_equal.
    replace (ab + (18446744073709551616 - ob))
      with ((ab - ob) + 1 * 18446744073709551616) by lia.
    rewrite N.mod_add by lia. apply N.mod_small. lia.
Qed.

Lemma v6_offset_nonneg `{Rust} f sub a o :
  (0 <= o)%Z ->
  v6_offset (S f) sub a o =
  Ret ((if sub then v6_sub_internal else v6_add_internal) (top_half a) (bottom_half a) 0 (Z.to_N o)).
Proof. intros. cbn [v6_offset]. destruct (Z.ltb_spec o 0); [lia|reflexivity]. Qed.

#[global] Instance ipv6_laws `{Rust} : Laws ipv6.
Proof.
  refine {| nby := 16; okA := fun a => top_half a < 2 ^ 64 /\ bottom_half a < 2 ^ 64 |}.
  - lia.
  - reflexivity.
  - reflexivity.
  - exact v6_u8.
  - intros a [Ht Hb]. cbn [from_bytes to_bytes ipv6_ops].
    change (v6_to_bytes a) with (firstn 8 (v6_to_bytes a) ++ skipn 8 (v6_to_bytes a)).
    pose proof (v6_u8 a) as U.
    change (v6_to_bytes a) with (firstn 8 (v6_to_bytes a) ++ skipn 8 (v6_to_bytes a)) in U.
    apply Forall_app in U. destruct U as [U1 U2].
    rewrite v6_from_bytes_be by (reflexivity || assumption).
    rewrite <- !bval_bytes by assumption. cbn [firstn skipn v6_to_bytes]. rewrite !half_bts.
    rewrite !bval_nbits by assumption. now destruct a.
  - intros bs Hl Hb. destruct (list16 bs Hl) as (l1 & l2 & -> & H1 & H2).
    apply Forall_app in Hb. destruct Hb as [U1 U2].
    exists (Ipv6 (be_value l1) (be_value l2)). cbn [from_bytes to_bytes ipv6_ops].
    pose proof (be_value_lt l1 U1) as L1. rewrite H1 in L1.
    pose proof (be_value_lt l2 U2) as L2. rewrite H2 in L2.
    split; [now apply v6_from_bytes_be|]. split; [split; [exact L1|exact L2]|].
    apply bytes_to_bits_inj; [apply v6_u8|apply Forall_app; auto|].
    rewrite v6_bts, bytes_to_bits_app. cbn [top_half bottom_half].
    rewrite <- !bval_bytes by assumption.
    f_equal; apply nbits_bval; rewrite bytes_to_bits_length; lia.
  - intros bs Hl. cbn. do 16 (destruct bs as [|? bs]; [reflexivity|]).
    destruct bs; [contradiction|reflexivity].
  - intros a [Ht Hb]. cbn [bitwise_negate to_bytes ipv6_ops]. unfold bts. cbn [to_bytes ipv6_ops].
    rewrite !v6_bts. cbn [v6_negate top_half bottom_half]. split.
    + split; (apply lxor_lt; [assumption|reflexivity]).
    + rewrite map_app. f_equal; apply (nbits_xor_ones 64).
  - intros a b [Hat Hab] [Hbt Hbb]. unfold bts. cbn [band to_bytes ipv6_ops]. rewrite !v6_bts.
    cbn [v6_and top_half bottom_half]. split; [split; now apply land_lt|].
    rewrite map2_app by now rewrite !nbits_length. f_equal; apply nbits_land.
  - intros a b [Hat Hab] [Hbt Hbb]. unfold bts. cbn [bor to_bytes ipv6_ops]. rewrite !v6_bts.
    cbn [v6_or top_half bottom_half]. split; [split; now apply lor_lt|].
    rewrite map2_app by now rewrite !nbits_length. f_equal; apply nbits_lor.
  - intros a b [Hat Hab] [Hbt Hbb]. unfold bts. cbn [bxor to_bytes ipv6_ops]. rewrite !v6_bts.
    cbn [v6_xor top_half bottom_half]. split; [split; now apply lxor_lt|].
    rewrite map2_app by now rewrite !nbits_length. f_equal; apply nbits_lxor.
  - intros a b [Hat Hab] [Hbt Hbb]. rewrite !v6_v_ok by assumption. cbn [acmp ipv6_ops]. unfold v6_cmp.
    change (2 ^ 64) with 18446744073709551616 in *.
    destruct (N.compare_spec (top_half a) (top_half b)).
    + rewrite H0. symmetry. apply compare_add_l.
    + symmetry. apply N.compare_lt_iff. lia.
    + symmetry. apply N.compare_gt_iff. lia.
  - intros [x y] [x' y']. cbn. unfold v6_eqb. cbn. rewrite andb_true_iff, !N.eqb_eq.
    split; [intros [-> ->]; reflexivity | intros E; injection E; auto].
  - intros a [Ht Hb]. cbn [count_ones ipv6_ops]. unfold v6_count_ones, bts. cbn [to_bytes ipv6_ops].
    rewrite v6_bts, ctrue_app, Nat2N.inj_add.
    now rewrite !(popcount_nbits 64) by assumption.
  - intros a [Ht Hb]. cbn [count_zeros ipv6_ops]. unfold v6_count_zeros, bts. cbn [to_bytes ipv6_ops].
    rewrite v6_bts, cfalse_app, Nat2N.inj_add.
    rewrite !(popcount_nbits 64) by assumption.
    pose proof (ctrue_cfalse (nbits 64 (top_half a))) as E1. rewrite nbits_length in E1.
    pose proof (ctrue_cfalse (nbits 64 (bottom_half a))) as E2. rewrite nbits_length in E2. lia.
  - intros a b [Hat Hab] [Hbt Hbb]. cbn [add_addr ipv6_ops]. unfold v6_add_addr.
    rewrite !v6_v_ok by assumption.
    pose proof (v6_add_internal_spec _ _ _ _ Hat Hab Hbt Hbb) as S.
    destruct (v6_add_internal _ _ _ _) as [c|].
    + destruct S as [[S1 S2] S3]. split; [auto|]. rewrite v6_v_ok by assumption. exact S3.
    + exact S.
  - intros a o [Hat Hab] Ho. cbn [add_offset ipv6_ops]. unfold v6_add_offset, v6_offset_depth.
    assert (Hoff : Z.to_N o < 2 ^ 64).
    { unfold i32_max in Ho. change (2 ^ 31)%Z with 2147483648%Z in Ho.
      change (2 ^ 64) with 18446744073709551616. lia. }
    rewrite v6_offset_nonneg by lia. eexists. split; [reflexivity|].
    rewrite !v6_v_ok by assumption.
    assert (H0 : 0 < 2 ^ 64) by reflexivity.
    pose proof (v6_add_internal_spec _ _ _ _ Hat Hab H0 Hoff) as S.
    destruct (v6_add_internal _ _ _ _) as [c|].
    + destruct S as [[S1 S2] S3]. split; [auto|]. rewrite v6_v_ok by assumption. exact S3.
    + exact S.
  - intros a [Hat Hab] Ho. cbn [subtract_offset ipv6_ops]. unfold v6_subtract_offset, v6_offset_depth.
    rewrite v6_offset_nonneg by lia.
    rewrite v6_v_ok in * by assumption.
    assert (Hb0 : bottom_half a <> 0).
    { intros E. rewrite E, N.add_0_r in Ho.
      rewrite N.odd_mul in Ho. change (N.odd (2 ^ 64)) with false in Ho.
      rewrite andb_false_r in Ho. discriminate. }
    rewrite v6_sub_internal_spec; try assumption; try reflexivity.
    change (Z.to_N 1) with 1. change (2 ^ 64) with 18446744073709551616 in *.
    destruct (N.ltb_spec (top_half a) 0); [lia|].
    destruct (N.ltb_spec (bottom_half a) 1); [lia|].
    eexists. split; [reflexivity|]. rewrite v6_v_ok; cbn [top_half bottom_half];
      change (2 ^ 64) with 18446744073709551616; lia.
Defined.
