(** * Pf_Addr: proofs for P_Addr *)
From Verif Require Import RustBase Addr BitManip Cidr Net Spec SpecText Bits Weave Bytes Laws NetFacts SetFacts Family Demo.
From Coq Require Import ZifyBool ZifyNat ZifyN.
Ltac Zify.zify_post_hook ::= Z.div_mod_to_equations.

Lemma c01_bytes_of_address : forall (R : Rust) (F : family) (a : addr F),
  valid a ->
  N.of_nat (List.length (to_bytes a)) * 8 = width F /\ u8s (to_bytes a) /\ be_value (to_bytes a) = value a.
Proof.
  intros R F a Ha. rewrite law_len. rewrite width_W. unfold W. split; [lia|].
  split; [apply law_u8|]. rewrite <- bval_bytes by apply law_u8. now apply value_v.
Qed.

Lemma c01_bytes_roundtrip : forall (R : Rust) (F : family) (a : addr F),
  valid a -> from_bytes (to_bytes a) = Some a.
Proof. intros R F a Ha. apply law_from_to. now apply valid_ok. Qed.

Lemma c01_address_of_bytes : forall (R : Rust) (F : family) (bs : list N),
  u8s bs -> N.of_nat (List.length bs) * 8 = width F ->
  exists a : addr F, from_bytes bs = Some a /\ valid a /\ value a = be_value bs /\ to_bytes a = bs.
Proof.
  intros R F bs Hb Hl. rewrite width_W in Hl. unfold W in Hl.
  destruct (law_to_from (A := addr F) bs) as (a & E & Ha & Eb); [lia|assumption|].
  apply valid_ok in Ha. exists a. repeat split; try assumption.
  rewrite <- value_v by assumption. unfold v, bts. rewrite Eb. now apply bval_bytes.
Qed.

Lemma c01_other_lengths_rejected : forall (R : Rust) (F : family) (bs : list N),
  N.of_nat (List.length bs) * 8 <> width F -> @from_bytes (addr F) _ bs = None.
Proof.
  intros R F bs Hl. rewrite width_W in Hl. unfold W in Hl. apply law_from_none. lia.
Qed.

(** Groups *)
Lemma land_ffff n k : N.land (N.shiftr n k) 0xFFFF = n / 2 ^ k mod 65536.
Proof. change 0xFFFF with (N.ones 16). now rewrite N.land_ones, N.shiftr_div_pow2. Qed.

Lemma half_groups n :
  n < 2 ^ 64 ->
  ((n / 2 ^ 48 mod 65536 * 65536 + n / 2 ^ 32 mod 65536) * 65536 + n / 2 ^ 16 mod 65536) * 65536
  + n / 2 ^ 0 mod 65536 = n.
Proof.
  change (2 ^ 48) with (65536 * (65536 * 65536)). change (2 ^ 32) with (65536 * 65536).
  change (2 ^ 16) with 65536. change (2 ^ 0) with 1. change (2 ^ 64) with 18446744073709551616.
  rewrite <- !N.div_div by lia. rewrite N.div_1_r. intros H.
  set (q1 := n / 65536) in *. set (q2 := q1 / 65536) in *. set (q3 := q2 / 65536) in *.
  assert (n = 65536 * q1 + n mod 65536) by (apply N.div_mod; lia).
  assert (q1 = 65536 * q2 + q1 mod 65536) by (apply N.div_mod; lia).
  assert (q2 = 65536 * q3 + q2 mod 65536) by (apply N.div_mod; lia).
  assert (q3 < 65536).
  { unfold q3, q2, q1. rewrite !N.div_div by lia. apply N.div_lt_upper_bound; lia. }
  rewrite (N.mod_small q3) by assumption. lia.
Qed.

Lemma c06_groups_of_address : forall (a : addr V6),
  valid a ->
  List.length (v6_to_chunks a) = 8%nat /\ u16s (v6_to_chunks a) /\ groups_value (v6_to_chunks a) = value a.
Proof.
  intros a [Ht Hb]. split; [reflexivity|]. split.
  - unfold v6_to_chunks. rewrite !land_ffff. repeat (constructor; [apply N.mod_lt; discriminate|]). constructor.
  - unfold v6_to_chunks. rewrite !land_ffff. unfold groups_value. cbn [fold_left value].
    rewrite N.mul_0_l, N.add_0_l. rewrite half_groups by assumption.
    pose proof (half_groups _ Hb) as E.
    set (x3 := bottom_half a / 2 ^ 48 mod 65536) in *. set (x2 := bottom_half a / 2 ^ 32 mod 65536) in *.
    set (x1 := bottom_half a / 2 ^ 16 mod 65536) in *. set (x0 := bottom_half a / 2 ^ 0 mod 65536) in *.
    change (2 ^ 64) with 18446744073709551616. lia.
Qed.

Lemma lor_groups c0 c1 c2 c3 :
  c0 < 65536 -> c1 < 65536 -> c2 < 65536 -> c3 < 65536 ->
  N.lor (N.lor (N.lor (shl64 c0 48) (shl64 c1 32)) (shl64 c2 16)) (shl64 c3 0) =
  ((c0 * 65536 + c1) * 65536 + c2) * 65536 + c3.
Proof.
  intros. unfold shl64. rewrite !N.shiftl_mul_pow2.
  change (2 ^ 48) with 281474976710656. change (2 ^ 32) with 4294967296.
  change (2 ^ 16) with 65536. change (2 ^ 0) with 1. change (2 ^ 64) with 18446744073709551616.
  rewrite !N.mod_small by lia.
  rewrite (lor_add (c0 * _) (c1 * _) 48) by (change (2 ^ 48) with 281474976710656; lia).
  rewrite (lor_add _ (c2 * _) 32) by (change (2 ^ 32) with 4294967296; lia).
  rewrite (lor_add _ (c3 * _) 16) by (change (2 ^ 16) with 65536; lia).
  lia.
Qed.

Lemma chunks_of_value t b c0 c1 c2 c3 c4 c5 c6 c7 :
  c0 < 65536 -> c1 < 65536 -> c2 < 65536 -> c3 < 65536 ->
  c4 < 65536 -> c5 < 65536 -> c6 < 65536 -> c7 < 65536 ->
  t = ((c0 * 65536 + c1) * 65536 + c2) * 65536 + c3 ->
  b = ((c4 * 65536 + c5) * 65536 + c6) * 65536 + c7 ->
  v6_to_chunks (Ipv6 t b) = [c0; c1; c2; c3; c4; c5; c6; c7].
Proof.
  intros. unfold v6_to_chunks. cbn [top_half bottom_half]. rewrite !land_ffff.
  change (2 ^ 48) with (65536 * (65536 * 65536)). change (2 ^ 32) with (65536 * 65536).
  change (2 ^ 16) with 65536. change (2 ^ 0) with 1.
  rewrite <- !N.div_div by lia. rewrite !N.div_1_r. subst t b.
  assert (D : forall x y, y < 65536 -> (x * 65536 + y) / 65536 = x).
  { intros x y Hy. rewrite N.add_comm, N.div_add, N.div_small by (assumption || lia). lia. }
  assert (M : forall x y, y < 65536 -> (x * 65536 + y) mod 65536 = y).
  { intros x y Hy. rewrite N.add_comm, N.mod_add, N.mod_small by (assumption || lia). lia. }
  rewrite !D, !M by assumption. rewrite (N.mod_small c0), (N.mod_small c4) by assumption. reflexivity.
Qed.

Lemma c06_address_of_groups : forall (gs : list N),
  u16s gs -> List.length gs = 8%nat ->
  exists a : addr V6, v6_from_chunks gs = Some a /\ valid a /\ value a = groups_value gs /\ v6_to_chunks a = gs.
Proof.
  intros gs Hg Hl. destruct (list8 gs Hl) as (c0 & c1 & c2 & c3 & c4 & c5 & c6 & c7 & ->).
  repeat match goal with H : u16s _ |- _ => inversion H; clear H; subst
                       | H : Forall _ _ |- _ => inversion H; clear H; subst end.
  eexists. split; [reflexivity|]. rewrite !lor_groups by assumption.
  cbn [valid value top_half bottom_half].
  split; [change (2 ^ 64) with 18446744073709551616; lia|]. split.
  - unfold groups_value. cbn [fold_left]. change (2 ^ 64) with 18446744073709551616. lia.
  - now apply chunks_of_value.
Qed.

Lemma c06_groups_roundtrip : forall (a : addr V6),
  valid a -> v6_from_chunks (v6_to_chunks a) = Some a.
Proof.
  intros a Ha. destruct (c06_groups_of_address a Ha) as (Hl & Hg & E).
  destruct (c06_address_of_groups _ Hg Hl) as (b & Eb & Hb & Vb & _). rewrite Eb. f_equal.
  apply (@value_inj debug_env V6); try assumption. congruence.
Qed.

Lemma c06_other_lengths_rejected : forall (gs : list N),
  List.length gs <> 8%nat -> v6_from_chunks gs = None.
Proof.
  intros gs Hl. do 8 (destruct gs as [|? gs]; [reflexivity|]). destruct gs; [contradiction|reflexivity].
Qed.

(** Addition *)
Lemma c07_add_address : forall (R : Rust) (F : family) (a b : addr F),
  valid a -> valid b ->
  (value a + value b < 2 ^ width F ->
     exists c, add_addr a b = Some c /\ valid c /\ value c = value a + value b) /\
  (2 ^ width F <= value a + value b -> add_addr a b = None).
Proof.
  intros R F a b Ha Hb. pose proof Ha as Ha'. pose proof Hb as Hb'.
  apply valid_ok in Ha', Hb'. pose proof (law_add a b Ha' Hb') as S. fold (@W (addr F) _ _) in S.
  rewrite <- width_W, !value_v in S by assumption.
  destruct (add_addr a b) as [c|].
  - destruct S as [Hc Ec]. apply valid_ok in Hc. rewrite value_v in Ec by assumption.
    split; [eauto|]. intros Hov. pose proof (value_lt c Hc). lia.
  - split; [lia|reflexivity].
Qed.

Lemma c07_add_offset : forall (R : Rust) (F : family) (a : addr F) (o : Z),
  valid a -> (0 <= o <= i32_max)%Z ->
  (value a + Z.to_N o < 2 ^ width F ->
     exists c, add_offset a o = Ret (Some c) /\ valid c /\ value c = value a + Z.to_N o) /\
  (2 ^ width F <= value a + Z.to_N o -> add_offset a o = Ret None).
Proof.
  intros R F a o Ha Ho. pose proof Ha as Ha'.
  apply valid_ok in Ha'. destruct (law_add_offset a o Ha' Ho) as (r & -> & S). fold (@W (addr F) _ _) in S.
  rewrite <- width_W, !value_v in S by assumption.
  destruct r as [c|].
  - destruct S as [Hc Ec]. apply valid_ok in Hc. rewrite value_v in Ec by assumption.
    split; [eauto|]. intros Hov. pose proof (value_lt c Hc). lia.
  - split; [lia|reflexivity].
Qed.

Lemma v4_internal x o :
  ((0 <= x + o < 2 ^ 32)%Z ->
     exists c, v4_add_internal x o = Some c /\ addr_value c < 2 ^ 32 /\ Z.of_N (addr_value c) = (x + o)%Z) /\
  (~ (0 <= x + o < 2 ^ 32)%Z -> v4_add_internal x o = None).
Proof.
  pose proof (v4_add_internal_spec x o) as S. destruct (v4_add_internal x o) as [c|].
  - destruct S as [S1 S2]. split; [eauto|]. intros Hn. exfalso. apply Hn.
    change (2 ^ 32) with 4294967296 in S2. change (2 ^ 32)%Z with 4294967296%Z. lia.
  - split; [|reflexivity]. lia.
Qed.

Lemma c07_add_offset_v4_signed : forall (R : Rust) (a : addr V4) (o : Z),
  valid a -> (i32_min <= o <= i32_max)%Z ->
  ((0 <= Z.of_N (value a) + o < 2 ^ 32)%Z ->
     exists c, add_offset a o = Ret (Some c) /\ valid c /\ Z.of_N (value c) = (Z.of_N (value a) + o)%Z) /\
  (~ (0 <= Z.of_N (value a) + o < 2 ^ 32)%Z -> add_offset a o = Ret None).
Proof.
  intros R a o Ha Ho. cbn [add_offset addr_ops ipv4_ops value valid]. unfold v4_add_offset.
  destruct (v4_internal (Z.of_N (addr_value a)) o) as [S1 S2]. split.
  - intros H. destruct (S1 H) as (c & -> & S). eauto.
  - intros H. now rewrite (S2 H).
Qed.

Lemma c08_subtract_v4 : forall (R : Rust) (a b : addr V4),
  valid a -> valid b ->
  (value b <= value a ->
     exists c, subtract_addr a b = Some c /\ valid c /\ value c = value a - value b) /\
  (value a < value b -> subtract_addr a b = None).
Proof.
  intros R a b Ha Hb. cbn [subtract_addr addr_ops ipv4_ops value valid] in *. unfold v4_subtract_addr.
  destruct (v4_internal (Z.of_N (addr_value a)) (- Z.of_N (addr_value b))) as [S1 S2].
  change (2 ^ 32)%Z with 4294967296%Z in *. change (2 ^ 32) with 4294967296 in *. split; intros H.
  - destruct S1 as (c & -> & Hc & Ec); [lia|]. exists c. repeat split; [assumption|lia].
  - apply S2. lia.
Qed.

Lemma c08_subtract_offset_v4 : forall (R : Rust) (a : addr V4) (o : Z),
  valid a -> (i32_min <= o <= i32_max)%Z ->
  ((0 <= Z.of_N (value a) - o < 2 ^ 32)%Z ->
     exists c, subtract_offset a o = Ret (Some c) /\ valid c /\ Z.of_N (value c) = (Z.of_N (value a) - o)%Z) /\
  (~ (0 <= Z.of_N (value a) - o < 2 ^ 32)%Z -> subtract_offset a o = Ret None).
Proof.
  intros R a o Ha Ho. cbn [subtract_offset addr_ops ipv4_ops value valid]. unfold v4_subtract_offset.
  destruct (v4_internal (Z.of_N (addr_value a)) (- o)) as [S1 S2]. rewrite Z.add_opp_r in *. split.
  - intros H. destruct (S1 H) as (c & -> & S). eauto.
  - intros H. now rewrite (S2 H).
Qed.

Lemma c08_subtract_v6_refuted : exists (a b : addr V6),
  valid a /\ valid b /\ value b <= value a /\
  forall c : addr V6, v6_subtract_addr a b = Some c -> value c <> value a - value b.
Proof.
  exists (ip6 0 0 0 2 0 0 0 0), (ip6 0 0 0 0 0 0 0 1).
  split; [split; reflexivity|]. split; [split; reflexivity|]. split; [discriminate|].
  intros c. vm_compute. intros E. injection E as <-. discriminate.
Qed.

Lemma half_mod t b : b < 2 ^ 64 -> (t * 2 ^ 64 + b) mod 2 ^ 64 = b.
Proof. intros Hb. rewrite N.add_comm, N.mod_add by discriminate. now apply N.mod_small. Qed.

Lemma v6_sub_value at_ ab ot ob :
  at_ < 2 ^ 64 -> ab < 2 ^ 64 -> ot < 2 ^ 64 -> ob < 2 ^ 64 ->
  let x := at_ * 2 ^ 64 + ab in let y := ot * 2 ^ 64 + ob in
  (x < y -> v6_sub_internal at_ ab ot ob = None) /\
  (y <= x -> exists c, v6_sub_internal at_ ab ot ob = Some c /\ (top_half c < 2 ^ 64 /\ bottom_half c < 2 ^ 64) /\
     top_half c * 2 ^ 64 + bottom_half c = x - y + (if ab <? ob then 2 ^ 64 else 0)).
Proof.
  intros H1 H2 H3 H4 x y. unfold x, y. rewrite v6_sub_internal_spec by assumption.
  change (2 ^ 64) with 18446744073709551616 in *.
  destruct (N.ltb_spec at_ ot); [split; [reflexivity|lia]|].
  destruct (N.ltb_spec ab ob).
  - destruct (N.eqb_spec at_ ot); [split; [reflexivity|lia]|].
    split; [lia|]. intros. eexists. split; [reflexivity|]. cbn [top_half bottom_half]. lia.
  - split; [lia|]. intros. eexists. split; [reflexivity|]. cbn [top_half bottom_half]. lia.
Qed.

Lemma c08_subtract_v6_exact : forall (R : Rust) (a b : addr V6),
  valid a -> valid b ->
  (value a < value b -> subtract_addr a b = None) /\
  (value b <= value a ->
     exists c, subtract_addr a b = Some c /\ valid c /\
       value c = value a - value b + (if value a mod 2 ^ 64 <? value b mod 2 ^ 64 then 2 ^ 64 else 0)).
Proof.
  intros R a b [Hat Hab] [Hbt Hbb]. cbn [subtract_addr addr_ops ipv6_ops value valid].
  rewrite !half_mod by assumption. unfold v6_subtract_addr. now apply v6_sub_value.
Qed.

Lemma v6_offset_return R sub a o : (0 <= o)%Z ->
  @v6_offset R v6_offset_depth sub a o =
  Ret ((if sub then v6_sub_internal else v6_add_internal) (top_half a) (bottom_half a) 0 (Z.to_N o)).
Proof. intros H. unfold v6_offset_depth. now rewrite v6_offset_nonneg. Qed.

Lemma c08_subtract_offset_v6_exact : forall (R : Rust) (a : addr V6) (o : Z),
  valid a -> (0 <= o <= i32_max)%Z ->
  (value a < Z.to_N o -> subtract_offset a o = Ret None) /\
  (Z.to_N o <= value a ->
     exists c, subtract_offset a o = Ret (Some c) /\ valid c /\
       value c = value a - Z.to_N o + (if value a mod 2 ^ 64 <? Z.to_N o then 2 ^ 64 else 0)).
Proof.
  intros R a o [Hat Hab] Ho. cbn [subtract_offset addr_ops ipv6_ops value valid].
  rewrite half_mod by assumption. unfold v6_subtract_offset. rewrite v6_offset_return by lia.
  assert (Hoff : Z.to_N o < 2 ^ 64).
  { unfold i32_max in Ho. change (2 ^ 31)%Z with 2147483648%Z in Ho.
    change (2 ^ 64) with 18446744073709551616. lia. }
  destruct (v6_sub_value (top_half a) (bottom_half a) 0 (Z.to_N o)) as [S1 S2];
    [assumption|assumption|reflexivity|assumption|].
  rewrite N.mul_0_l, N.add_0_l in *. split; intros H.
  - now rewrite (S1 H).
  - destruct (S2 H) as (c & -> & S). eauto.
Qed.

Lemma v6_offset_neg R f sub a o : (i32_min < o < 0)%Z ->
  @v6_offset R (S f) sub a o = v6_offset f (negb sub) a (- o)%Z.
Proof.
  intros Ho. cbn [v6_offset]. destruct (Z.ltb_spec o 0); [|lia]. unfold i32_neg.
  destruct (Z.eqb_spec o i32_min); [lia|]. reflexivity.
Qed.

Lemma c08_negative_offset_v6 : forall (R : Rust) (a : addr V6) (o : Z),
  (i32_min < o < 0)%Z ->
  add_offset a o = subtract_offset a (- o)%Z /\ subtract_offset a o = add_offset a (- o)%Z.
Proof.
  intros R a o Ho. cbn [add_offset subtract_offset addr_ops ipv6_ops].
  unfold v6_add_offset, v6_subtract_offset.
  split; rewrite (v6_offset_return _ _ a (- o)%Z) by lia;
    unfold v6_offset_depth; rewrite v6_offset_neg by assumption;
    rewrite v6_offset_nonneg by lia; reflexivity.
Qed.

Lemma c09_offsets_return : forall (R : Rust) (F : family) (a : addr F) (o : Z),
  (i32_min <= o <= i32_max)%Z -> (F = V6 -> o <> i32_min) ->
  exists r s, add_offset a o = Ret r /\ subtract_offset a o = Ret s.
Proof.
  intros R F a o Ho HF. destruct F.
  - eexists _, _. split; reflexivity.
  - specialize (HF eq_refl). destruct (Z.lt_ge_cases o 0).
    + destruct (c08_negative_offset_v6 R a o) as [-> ->]; [lia|].
      cbn [add_offset subtract_offset addr_ops ipv6_ops]. unfold v6_add_offset, v6_subtract_offset.
      rewrite !v6_offset_return by lia. eauto.
    + cbn [add_offset subtract_offset addr_ops ipv6_ops]. unfold v6_add_offset, v6_subtract_offset.
      rewrite !v6_offset_return by lia. eauto.
Qed.

Lemma v6_offset_min_checks R f sub a :
  @overflow_checks R = true -> @v6_offset R (S f) sub a i32_min = Panic.
Proof. intros H. cbn. unfold i32_neg. cbn. now rewrite H. Qed.

Lemma v6_offset_min_wrap R f sub a :
  @overflow_checks R = false -> @v6_offset R f sub a i32_min = Diverge.
Proof.
  intros H. revert sub; induction f as [|f IH]; intros sub; [reflexivity|].
  cbn [v6_offset]. change (i32_min <? 0)%Z with true. cbn iota.
  unfold i32_neg. rewrite Z.eqb_refl, H. cbn [bind]. apply IH.
Qed.

Lemma c09_least_offset : forall (R : Rust) (a : addr V6),
  (overflow_checks = true -> add_offset a i32_min = Panic /\ subtract_offset a i32_min = Panic) /\
  (overflow_checks = false -> add_offset a i32_min = Diverge /\ subtract_offset a i32_min = Diverge).
Proof.
  intros R a. cbn [add_offset subtract_offset addr_ops ipv6_ops]. unfold v6_add_offset, v6_subtract_offset.
  split; intros H; split; unfold v6_offset_depth;
    first [now apply v6_offset_min_checks | now apply v6_offset_min_wrap].
Qed.

Lemma c09_offsets_return_refuted : exists (a : addr V6) (o : Z),
  valid a /\ (i32_min <= o <= i32_max)%Z /\
  forall R : Rust, ~ (exists r, add_offset a o = Ret r) /\ ~ (exists r, subtract_offset a o = Ret r).
Proof.
  exists (ip6 1 0 0 0 0 0 0 0), i32_min. split; [split; reflexivity|]. split; [split; discriminate|].
  intros R. destruct (c09_least_offset R (ip6 1 0 0 0 0 0 0 0)) as [H1 H2].
  destruct overflow_checks; [destruct (H1 eq_refl) as [E1 E2]|destruct (H2 eq_refl) as [E1 E2]]; split; intros (r & E); congruence.
Qed.

Lemma c09_recursion_depth : forall (R : Rust) (a : addr V6) (o : Z) (sub : bool) (depth : nat),
  (i32_min <= o <= i32_max)%Z -> (2 <= depth)%nat ->
  v6_offset depth sub a o = v6_offset 2 sub a o.
Proof.
  intros R a o sub depth Ho Hd. destruct depth as [|[|d]]; [lia|lia|].
  destruct (Z.eq_dec o i32_min) as [->|Hn].
  - destruct (@overflow_checks R) eqn:E.
    + now rewrite !v6_offset_min_checks.
    + now rewrite !v6_offset_min_wrap.
  - destruct (Z.lt_ge_cases o 0).
    + rewrite (v6_offset_neg R (S d)), (v6_offset_neg R 1), !v6_offset_nonneg by lia. reflexivity.
    + rewrite (v6_offset_nonneg (S d)), (v6_offset_nonneg 1) by lia. reflexivity.
Qed.

Lemma c10_compare : forall (R : Rust) (F : family) (a b : addr F),
  valid a -> valid b -> acmp a b = (value a ?= value b).
Proof.
  intros R F a b Ha Hb. rewrite <- !value_v by assumption. apply law_cmp; now apply valid_ok.
Qed.

Lemma c10_equal : forall (R : Rust) (F : family) (a b : addr F),
  valid a -> valid b -> (aeqb a b = true <-> value a = value b).
Proof.
  intros R F a b Ha Hb. rewrite law_eqb. split; [now intros ->|]. now apply value_inj.
Qed.

Lemma c10_bitwise : forall (R : Rust) (F : family) (a b : addr F),
  valid a -> valid b ->
  (valid (band a b) /\ value (band a b) = N.land (value a) (value b)) /\
  (valid (bor a b) /\ value (bor a b) = N.lor (value a) (value b)) /\
  (valid (bxor a b) /\ value (bxor a b) = N.lxor (value a) (value b)).
Proof.
  intros R F a b Ha Hb. pose proof Ha as Ha'. pose proof Hb as Hb'. apply valid_ok in Ha', Hb'.
  repeat split; try (apply valid_ok; first [now apply law_and | now apply law_or | now apply law_xor]).
  - rewrite <- !value_v by (try assumption; apply valid_ok; now apply law_and). now apply v_and.
  - rewrite <- !value_v by (try assumption; apply valid_ok; now apply law_or). now apply v_or.
  - rewrite <- !value_v by (try assumption; apply valid_ok; now apply law_xor). now apply v_xor.
Qed.

Lemma c10_negate : forall (R : Rust) (F : family) (a : addr F),
  valid a ->
  valid (bitwise_negate a) /\
  forall i, i < width F -> N.testbit (value (bitwise_negate a)) i = negb (N.testbit (value a) i).
Proof.
  intros R F a Ha. pose proof Ha as Ha'. apply valid_ok in Ha'. destruct (law_neg a Ha') as [Hn E].
  apply valid_ok in Hn. split; [assumption|]. intros i Hi. rewrite width_W in Hi.
  rewrite <- !value_v, !testbit_v, E by assumption.
  change false with (negb true) at 1.
  rewrite nth_indep with (d' := negb false) by (rewrite map_length, bts_length; lia).
  apply map_nth.
Qed.

Lemma c10_bit_counts : forall (R : Rust) (F : family) (a : addr F),
  valid a ->
  count_ones a = N.of_nat (ones (N.to_nat (width F)) (value a)) /\
  count_zeros a = N.of_nat (zeros (N.to_nat (width F)) (value a)) /\
  count_ones a + count_zeros a = width F.
Proof.
  intros R F a Ha. pose proof Ha as Ha'. apply valid_ok in Ha'.
  unfold ones, zeros. fold (abits a). rewrite abits_bts by assumption.
  rewrite law_ones, law_zeros by assumption. split; [reflexivity|]. split; [reflexivity|].
  rewrite <- Nat2N.inj_add, ctrue_cfalse, bts_length. symmetry. apply width_W.
Qed.

Lemma c11_full_string_empty : forall (a : addr V6), v6_to_full_string a = [].
Proof. reflexivity. Qed.

Lemma c11_full_string_refuted : exists (a : addr V6),
  valid a /\
  ~ exists gs, List.length gs = 8%nat /\ Forall (fun g => List.length g = 4%nat) gs /\
               v6_to_full_string a = separated ":" gs.
Proof.
  exists (ip6 1 0 0 0 0 0 0 0). split; [split; reflexivity|]. intros (gs & Hl & Hg & E).
  rewrite c11_full_string_empty in E.
  destruct gs as [|g [|g' gs]]; [discriminate|discriminate|].
  inversion Hg; subst. cbn [separated] in E. destruct g; discriminate.
Qed.
