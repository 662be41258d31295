(** * SetFacts: networks as sets of addresses *)
From Verif Require Import RustBase Addr BitManip Cidr Net Spec Bits Weave Bytes Laws NetFacts.
From Coq Require Import ZifyBool ZifyNat ZifyN.
Ltac Zify.zify_post_hook ::= Z.div_mod_to_equations.

Section Facts.
  Context `{R : Rust} {A : Type} `{I : IpAddress A} `{L : !Laws A}.
  Implicit Types (a b m : A) (n : network A).
  Notation mk n := (subnet_mask n).
  Notation bs n := (base_addr n).
  Notation WN := (N.of_nat W).

  Lemma v_nbits a x : x < 2 ^ WN -> bts a = nbits W x -> v a = x.
  Proof. intros Hx E. unfold v. rewrite E. now apply bval_nbits. Qed.

  Lemma v_and a b : okA a -> okA b -> v (band a b) = N.land (v a) (v b).
  Proof.
    intros Ha Hb. destruct (law_and a b Ha Hb) as [_ E]. apply v_nbits.
    - apply land_lt; apply v_lt.
    - now rewrite nbits_land, !nbits_v.
  Qed.
  Lemma v_or a b : okA a -> okA b -> v (bor a b) = N.lor (v a) (v b).
  Proof.
    intros Ha Hb. destruct (law_or a b Ha Hb) as [_ E]. apply v_nbits.
    - apply lor_lt; apply v_lt.
    - now rewrite nbits_lor, !nbits_v.
  Qed.
  Lemma v_xor a b : okA a -> okA b -> v (bxor a b) = N.lxor (v a) (v b).
  Proof.
    intros Ha Hb. destruct (law_xor a b Ha Hb) as [_ E]. apply v_nbits.
    - apply lxor_lt; apply v_lt.
    - now rewrite nbits_lxor, !nbits_v.
  Qed.
  Lemma v_neg a : okA a -> v (bitwise_negate a) = 2 ^ WN - 1 - v a.
  Proof.
    intros Ha. destruct (law_neg a Ha) as [_ E]. unfold v. now rewrite E, bval_negb, bts_length.
  Qed.

  Lemma testbit_v a i : i < WN -> N.testbit (v a) i = nth (W - 1 - N.to_nat i) (bts a) false.
  Proof.
    intros Hi. unfold v. rewrite testbit_bval, bts_length.
    destruct (N.ltb_spec i WN); [reflexivity|lia].
  Qed.
  Lemma nth_bts a i : (i < W)%nat -> nth i (bts a) false = N.testbit (v a) (N.of_nat (W - 1 - i)).
  Proof.
    intros Hi. rewrite testbit_v by lia. f_equal. lia.
  Qed.

  Lemma nb_testbit m a b :
    nb m a = nb m b <->
    forall i, i < WN -> N.testbit (v m) i = true -> N.testbit (v a) i = N.testbit (v b) i.
  Proof.
    unfold nb. rewrite (select_nth_eq false) by now rewrite !bts_length.
    rewrite bts_length. split; intros E i Hi Hm.
    - rewrite !testbit_v by assumption. apply E; [lia|]. now rewrite <- testbit_v.
    - rewrite !nth_bts in * by assumption. apply E; [lia|assumption].
  Qed.
  Lemma hb_testbit m a b :
    hb m a = hb m b <->
    forall i, i < WN -> N.testbit (v m) i = false -> N.testbit (v a) i = N.testbit (v b) i.
  Proof.
    unfold hb. rewrite (reject_nth_eq false) by now rewrite !bts_length.
    rewrite bts_length. split; intros E i Hi Hm.
    - rewrite !testbit_v by assumption. apply E; [lia|]. now rewrite <- testbit_v.
    - rewrite !nth_bts in * by assumption. apply E; [lia|assumption].
  Qed.

  Lemma mem_testbit n a :
    mem n a <->
    forall i, i < WN -> N.testbit (v (mk n)) i = true -> N.testbit (v a) i = N.testbit (v (bs n)) i.
  Proof. unfold mem. rewrite nv_inj. apply nb_testbit. Qed.

  Lemma hv0_testbit m a :
    hv m a = 0 <-> forall i, i < WN -> N.testbit (v m) i = false -> N.testbit (v a) i = false.
  Proof.
    destruct (of_value 0 (pow2_pos _)) as (z & Hz & Ez).
    assert (E0 : hv m z = 0).
    { unfold hv. replace (hb m z) with (repeat false (hf m)); [apply bval_repeat_false|].
      assert (Eb : bts z = repeat false W).
      { rewrite <- (bts_length z). apply bval_zero. exact Ez. }
      clear -Eb. unfold hb, hf. rewrite Eb, <- (bts_length m). generalize (bts m). clear.
      induction l as [|[] l IH]; [reflexivity| |].
      - cbn [List.length repeat]. rewrite reject_true, cfalse_cons. exact IH.
      - cbn [List.length repeat]. rewrite reject_false, cfalse_cons. cbn [repeat Nat.add]. now f_equal. }
    rewrite <- E0, hv_inj, hb_testbit, Ez. setoid_rewrite N.bits_0. reflexivity.
  Qed.

  Lemma mem_land n a : okN n -> okA a -> (mem n a <-> N.land (v a) (v (mk n)) = v (bs n)).
  Proof.
    intros Hn Ha. rewrite <- contains_mem by assumption. unfold contains. rewrite law_eqb.
    rewrite <- v_and by (assumption || apply Hn). split; [now intros <-|].
    intros E. apply v_inj; [apply law_and; [assumption|apply Hn] | apply Hn | exact E].
  Qed.

  (** ** Superset *)
  Lemma superset_spec n n' :
    okN n -> okN n' ->
    (is_superset_of n n' = true <-> forall a, okA a -> mem n' a -> mem n a).
  Proof.
    intros Hn Hn'. unfold is_superset_of. rewrite andb_true_iff.
    fold (contains n (bs n')). rewrite contains_mem by (assumption || apply Hn').
    rewrite law_eqb. split.
    - intros [Hb Em] a Ha Hmem. rewrite mem_testbit in *. intros i Hi Hm.
      rewrite <- Hb by assumption. apply Hmem; [assumption|].
      apply (f_equal v) in Em. rewrite v_and in Em by (apply Hn' || apply Hn).
      rewrite <- Em, N.land_spec in Hm. now apply andb_true_iff in Hm.
    - intros Hsub. split; [apply Hsub; [apply Hn'|apply mem_base]|].
      assert (Hm := okN_mask n Hn). assert (Hm' := okN_mask n' Hn').
      apply v_inj; [now apply law_and|assumption|].
      rewrite v_and by assumption. apply N.bits_inj. intros i. rewrite N.land_spec.
      destruct (N.lt_ge_cases i WN) as [Hi|Hi].
      2:{ rewrite (testbit_high (v (mk n)) WN) by (apply v_lt || assumption). apply andb_false_r. }
      destruct (N.testbit (v (mk n)) i) eqn:E; [|apply andb_false_r].
      rewrite andb_true_r. destruct (N.testbit (v (mk n')) i) eqn:E'; [reflexivity|]. exfalso.
      (* flip bit i of the base of n' *)
      assert (Hpow : 2 ^ i < 2 ^ WN) by (apply N.pow_lt_mono_r; lia).
      destruct (of_value (N.lxor (v (bs n')) (2 ^ i))) as (c & Hc & Ec).
      { apply lxor_lt; [apply v_lt|assumption]. }
      assert (Hcm : mem n' c).
      { apply mem_testbit. intros j Hj Hjm. rewrite Ec, N.lxor_spec, N.pow2_bits_eqb.
        destruct (N.eqb_spec i j) as [<-|]; [congruence|]. apply xorb_false_r. }
      assert (H1 := Hsub c Hc Hcm). assert (H2 := Hsub (bs n') (okN_base n' Hn') (mem_base n')).
      rewrite mem_testbit in H1, H2. specialize (H1 i Hi E). specialize (H2 i Hi E).
      rewrite Ec, N.lxor_spec, N.pow2_bits_eqb, N.eqb_refl in H1.
      rewrite H2 in H1. destruct (N.testbit (v (bs n)) i); discriminate.
  Qed.

  Lemma superset_refl n : okN n -> is_superset_of n n = true.
  Proof. intros Hn. apply superset_spec; auto. Qed.

  Lemma superset_trans n1 n2 n3 :
    okN n1 -> okN n2 -> okN n3 ->
    is_superset_of n1 n2 = true -> is_superset_of n2 n3 = true -> is_superset_of n1 n3 = true.
  Proof.
    intros H1 H2 H3. rewrite !superset_spec by assumption. auto.
  Qed.

  Lemma superset_antisym n1 n2 :
    okN n1 -> okN n2 -> is_superset_of n1 n2 = true -> is_superset_of n2 n1 = true -> n1 = n2.
  Proof.
    intros H1 H2 S1 S2. apply okN_ext; try assumption.
    - unfold is_superset_of in S1, S2. rewrite andb_true_iff, !law_eqb in S1, S2.
      destruct S1 as [_ S1], S2 as [_ S2].
      apply v_inj; try apply H1; try apply H2.
      apply (f_equal v) in S1, S2. rewrite v_and in S1, S2 by (apply H1 || apply H2).
      rewrite <- S1, N.land_comm. exact S2.
    - assert (E : mk n1 = mk n2).
      { unfold is_superset_of in S1, S2. rewrite andb_true_iff, !law_eqb in S1, S2.
        destruct S1 as [_ S1], S2 as [_ S2].
        apply v_inj; try apply H1; try apply H2.
        apply (f_equal v) in S1, S2. rewrite v_and in S1, S2 by (apply H1 || apply H2).
        rewrite <- S1, N.land_comm. exact S2. }
      rewrite superset_spec in S1 by assumption.
      specialize (S1 (bs n2) (okN_base n2 H2) (mem_base n2)).
      apply (nv_hv_inj (mk n1)); [apply H1|apply H2| |].
      + symmetry. exact S1.
      + rewrite (okN_host n1 H1), E. symmetry. apply (okN_host n2 H2).
  Qed.

  (** ** CIDR networks are intervals *)
  Definition size n : N := 2 ^ N.of_nat (hf (mk n)).
  Definition cidr n : Prop := okN n /\ exists p, contig (bts (mk n)) p.

  Lemma size_pos n : 0 < size n.
  Proof. apply pow2_pos. Qed.

  Lemma mem_interval n a : cidr n -> (mem n a <-> v (bs n) <= v a < v (bs n) + size n).
  Proof.
    intros [Hn [p Hp]]. unfold size.
    rewrite (contig_v _ a _ Hp), (contig_v _ (bs n) _ Hp), (okN_host n Hn).
    pose proof (hv_lt (mk n) a). pose proof (pow2_pos (N.of_nat (hf (mk n)))). unfold mem. nia.
  Qed.

  Lemma aligned n : cidr n -> v (bs n) mod size n = 0.
  Proof.
    intros [Hn [p Hp]]. unfold size. rewrite (contig_v _ (bs n) _ Hp), (okN_host n Hn), N.add_0_r.
    apply N.mod_mul. apply N.pow_nonzero. lia.
  Qed.

  Lemma interval_top n : cidr n -> v (bs n) + size n <= 2 ^ WN.
  Proof.
    intros [Hn [p Hp]]. unfold size. rewrite (contig_v _ (bs n) _ Hp), (okN_host n Hn), N.add_0_r.
    pose proof (nv_lt (mk n) (bs n)). rewrite (pow_W (mk n)). nia.
  Qed.

  Lemma last_addr_value n a :
    cidr n -> last_addr_of_subnet n = Ret a -> okA a /\ v a = v (bs n) + size n - 1.
  Proof.
    intros [Hn [p Hp]] E. destruct (last_addr_spec n Hn) as (b & Eb & Hb & Hmem & Hh).
    assert (a = b) by congruence. subst b. split; [assumption|]. unfold size.
    rewrite (contig_v _ a _ Hp), (contig_v _ (bs n) _ Hp), (okN_host n Hn), Hh, Hmem.
    pose proof (pow2_pos (N.of_nat (hf (mk n)))). lia.
  Qed.

  Lemma last_addr_max n :
    okN n -> exists a, last_addr_of_subnet n = Ret a /\ okA a /\ mem n a /\
                       forall b, mem n b -> v b <= v a.
  Proof.
    intros Hn. destruct (last_addr_spec n Hn) as (a & E & Ha & Hm & Hh).
    exists a. repeat split; try assumption. intros b Hb.
    apply (host_le (mk n)); [unfold mem in *; congruence|]. rewrite Hh.
    pose proof (hv_lt (mk n) b). lia.
  Qed.

  Lemma base_min n b : okN n -> mem n b -> v (bs n) <= v b.
  Proof.
    intros Hn Hb. apply (host_le (mk n)); [unfold mem in *; congruence|]. rewrite (okN_host n Hn). lia.
  Qed.

  Lemma intersects_ret n n' :
    okN n -> okN n' -> exists r, intersects n n' = Ret r /\
      ((exists a, okA a /\ mem n a /\ mem n' a) -> r = true).
  Proof.
    intros Hn Hn'. unfold intersects.
    destruct (last_addr_max n Hn) as (l & -> & Hl & _ & Ml).
    destruct (last_addr_max n' Hn') as (l' & -> & Hl' & _ & Ml'). cbn [bind].
    eexists. split; [reflexivity|]. intros (a & Ha & Ma & Ma').
    rewrite !aleb_spec by (assumption || apply Hn || apply Hn').
    specialize (Ml a Ma). specialize (Ml' a Ma').
    pose proof (base_min n a Hn Ma). pose proof (base_min n' a Hn' Ma').
    apply andb_true_iff. rewrite !N.leb_le. lia.
  Qed.

  Lemma intersects_cidr n n' :
    cidr n -> cidr n' -> exists r, intersects n n' = Ret r /\
      (r = true <-> exists a, okA a /\ mem n a /\ mem n' a).
  Proof.
    intros Hn Hn'. destruct (intersects_ret n n' (proj1 Hn) (proj1 Hn')) as (r & E & Hr).
    exists r. split; [assumption|]. split; [|assumption]. intros ->.
    unfold intersects in E.
    destruct (last_addr_spec n (proj1 Hn)) as (l & El & Hl & _ & _).
    destruct (last_addr_spec n' (proj1 Hn')) as (l' & El' & Hl' & _ & _).
    rewrite El, El' in E. cbn [bind] in E. injection E as E.
    destruct (last_addr_value n l Hn El) as [_ Vl]. destruct (last_addr_value n' l' Hn' El') as [_ Vl'].
    rewrite !aleb_spec in E by (assumption || apply Hn || apply Hn').
    apply andb_true_iff in E. rewrite !N.leb_le in E.
    pose proof (size_pos n). pose proof (size_pos n').
    destruct (N.le_gt_cases (v (bs n)) (v (bs n'))).
    - exists (bs n'). split; [apply Hn'|]. rewrite !mem_interval by assumption. lia.
    - exists (bs n). split; [apply Hn|]. rewrite !mem_interval by assumption. lia.
  Qed.

  (** Aligned power-of-two intervals nest or are disjoint. *)
  Lemma pow_intervals x j y i :
    x mod 2 ^ j = 0 -> y mod 2 ^ i = 0 -> j <= i -> x < y + 2 ^ i -> y < x + 2 ^ j ->
    y <= x /\ x + 2 ^ j <= y + 2 ^ i.
  Proof.
    intros Hx Hy Hij H1 H2.
    replace i with ((i - j) + j) in * by lia. rewrite N.pow_add_r in *.
    set (P := 2 ^ j) in *. set (Q := 2 ^ (i - j)) in *.
    assert (0 < P) by apply pow2_pos. assert (0 < Q) by apply pow2_pos.
    apply N.mod_divide in Hx; [|lia]. apply N.mod_divide in Hy; [|nia].
    destruct Hx as [x' ->]. destruct Hy as [y' ->].
    set (z := y' * Q) in *. replace (y' * (Q * P)) with (z * P) in * by (unfold z; lia).
    clearbody z. rewrite <- N.mul_add_distr_r in *.
    assert (x' < z + Q) by nia. assert (z < x' + 1) by nia. split; nia.
  Qed.

  Lemma cidr_nest n n' :
    cidr n -> cidr n' -> size n <= size n' ->
    (exists a, mem n a /\ mem n' a) ->
    v (bs n') <= v (bs n) /\ v (bs n) + size n <= v (bs n') + size n'.
  Proof.
    intros Hn Hn' Hs (a & Ha & Ha').
    rewrite mem_interval in Ha, Ha' by assumption.
    unfold size in *. apply pow_intervals.
    - now apply aligned.
    - now apply aligned.
    - apply N.pow_le_mono_r_iff in Hs; lia.
    - lia.
    - lia.
  Qed.

  Lemma superset_interval n n' :
    cidr n -> cidr n' ->
    (is_superset_of n n' = true <->
     v (bs n) <= v (bs n') /\ v (bs n') + size n' <= v (bs n) + size n).
  Proof.
    intros Hn Hn'. rewrite superset_spec by (apply Hn || apply Hn').
    pose proof (size_pos n'). pose proof (interval_top n' Hn').
    split.
    - intros Hs.
      assert (H1 := Hs (bs n') (okN_base n' (proj1 Hn')) (mem_base n')).
      destruct (of_value (v (bs n') + size n' - 1)) as (c & Hc & Ec); [lia|].
      assert (H2 : mem n c) by (apply Hs; [assumption|]; rewrite mem_interval by assumption; lia).
      rewrite mem_interval in H1, H2 by assumption. lia.
    - intros Hi a Ha. rewrite !mem_interval by assumption. lia.
  Qed.

  Lemma cidr_trichotomy n n' :
    cidr n -> cidr n' ->
    is_superset_of n n' = true \/ is_superset_of n' n = true \/ (forall a, ~ (mem n a /\ mem n' a)).
  Proof.
    intros Hn Hn'.
    destruct (N.lt_ge_cases (v (bs n)) (v (bs n') + size n')) as [H1|H1].
    2:{ right; right. intros a. rewrite !mem_interval by assumption. lia. }
    destruct (N.lt_ge_cases (v (bs n')) (v (bs n) + size n)) as [H2|H2].
    2:{ right; right. intros a. rewrite !mem_interval by assumption. lia. }
    pose proof (aligned n Hn) as A1. pose proof (aligned n' Hn') as A2.
    rewrite !superset_interval by assumption.
    unfold size in *.
    destruct (N.le_gt_cases (N.of_nat (hf (mk n))) (N.of_nat (hf (mk n')))) as [Hs|Hs].
    - right; left. apply pow_intervals; assumption.
    - left. apply pow_intervals; try assumption. lia.
  Qed.
End Facts.
