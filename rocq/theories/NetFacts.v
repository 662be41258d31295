(** * NetFacts: the bit-level meaning of the functions of bit_manip.rs and
    net.rs, for any address type satisfying [Laws] *)
From Verif Require Import RustBase Addr BitManip Cidr Net Spec Bits Weave Bytes Laws.
From Coq Require Import ZifyBool ZifyNat ZifyN.
Ltac Zify.zify_post_hook ::= Z.div_mod_to_equations.

Section Facts.
  Context `{R : Rust} {A : Type} `{I : IpAddress A} `{L : !Laws A}.
  Implicit Types (a b m : A) (n : network A).

  Definition W : nat := 8 * nby.

  Lemma bts_length a : List.length (bts a) = W.
  Proof. unfold bts. now rewrite bytes_to_bits_length, law_len. Qed.

  Lemma v_lt a : v a < 2 ^ N.of_nat W.
  Proof. unfold v. rewrite <- (bts_length a). apply bval_lt. Qed.

  Lemma bts_inj a b : okA a -> okA b -> bts a = bts b -> a = b.
  Proof.
    intros Ha Hb E. apply bytes_to_bits_inj in E; [|apply law_u8|apply law_u8].
    apply law_from_to in Ha. apply law_from_to in Hb. congruence.
  Qed.

  Lemma v_inj a b : okA a -> okA b -> v a = v b -> a = b.
  Proof.
    intros Ha Hb E. apply bts_inj; try assumption. apply bval_inj; [|exact E].
    now rewrite !bts_length.
  Qed.

  Lemma nbits_v a : nbits W (v a) = bts a.
  Proof. apply nbits_bval. apply bts_length. Qed.

  Lemma of_bits l :
    List.length l = W -> exists a, from_bytes (bits_to_bytes l) = Some a /\ okA a /\ bts a = l.
  Proof.
    intros Hl. destruct (bits_bytes_bits_exact l nby Hl) as [E1 E2].
    destruct (law_to_from (bits_to_bytes l) E2 (bits_to_bytes_u8 l)) as (a & E3 & Ha & E4).
    exists a. repeat split; try assumption. unfold bts. now rewrite E4.
  Qed.

  Lemma of_value x : x < 2 ^ N.of_nat W -> exists a, okA a /\ v a = x.
  Proof.
    intros Hx. destruct (of_bits (nbits W x)) as (a & _ & Ha & E); [apply nbits_length|].
    exists a. split; [assumption|]. unfold v. rewrite E. now apply bval_nbits.
  Qed.

  Lemma from_mask_bytes p :
    exists m, from_bytes (subnet_mask_bytes_from_prefix p nby) = Some m /\ okA m /\
              bts m = repeat true (Nat.min (N.to_nat p) W) ++ repeat false (W - Nat.min (N.to_nat p) W).
  Proof.
    destruct (law_to_from (subnet_mask_bytes_from_prefix p nby)) as (m & E & Hm & E').
    - apply mask_bytes_length.
    - apply mask_bytes_u8.
    - exists m. repeat split; try assumption. unfold bts. rewrite E'. apply mask_bytes_bits.
  Qed.

  (** ** Network and host part *)
  Definition kt m : nat := ctrue (bts m).
  Definition hf m : nat := cfalse (bts m).
  Definition nb m a : list bool := select (bts m) (bts a).
  Definition hb m a : list bool := reject (bts m) (bts a).

  Lemma kt_hf m : (kt m + hf m)%nat = W.
  Proof. unfold kt, hf. rewrite ctrue_cfalse. apply bts_length. Qed.
  Lemma nb_length m a : List.length (nb m a) = kt m.
  Proof. apply select_length. now rewrite !bts_length. Qed.
  Lemma hb_length m a : List.length (hb m a) = hf m.
  Proof. apply reject_length. now rewrite !bts_length. Qed.
  Lemma wv_nb_hb m a : wv (bts m) (nb m a) (hb m a) = bts a.
  Proof. apply wv_select_reject. now rewrite !bts_length. Qed.

  Lemma nb_hb_inj m a b : okA a -> okA b -> nb m a = nb m b -> hb m a = hb m b -> a = b.
  Proof.
    intros Ha Hb E1 E2. apply bts_inj; try assumption.
    rewrite <- (wv_nb_hb m a), <- (wv_nb_hb m b), E1, E2. reflexivity.
  Qed.

  (** The address with given network and host bits. *)
  Lemma of_nb_hb m xs ys :
    List.length xs = kt m -> List.length ys = hf m ->
    exists a, okA a /\ nb m a = xs /\ hb m a = ys.
  Proof.
    intros Hx Hy. destruct (of_bits (wv (bts m) xs ys)) as (a & _ & Ha & E).
    - rewrite wv_length by assumption. apply bts_length.
    - exists a. split; [assumption|]. unfold nb, hb. rewrite E.
      split; [now apply select_wv | now apply reject_wv].
  Qed.

  Lemma contig_of_prefix m p :
    prefix_from_subnet_mask_bytes (to_bytes m) = Some p <-> contig (bts m) (N.to_nat p).
  Proof. apply prefix_from_bytes_spec. apply law_u8. Qed.

  Lemma contig_nb_hb m a p : contig (bts m) p -> nb m a = firstn p (bts a) /\ hb m a = skipn p (bts a).
  Proof.
    intros Hc. apply contig_repeat in Hc. rewrite bts_length in Hc. destruct Hc as [Hp E].
    unfold nb, hb. rewrite E.
    split; [apply select_contig | apply reject_contig]; rewrite bts_length; lia.
  Qed.

  (** ** unravel_address, weave_address *)
  Lemma unravel_spec a m :
    okA a -> exists u, unravel_address a m = Ret u /\ okA u /\ bts u = nb m a ++ hb m a.
  Proof.
    intros Ha. unfold unravel_address.
    destruct (prefix_from_subnet_mask_bytes (to_bytes m)) as [p|] eqn:E.
    - apply contig_of_prefix in E. exists a. split; [reflexivity|]. split; [assumption|].
      destruct (contig_nb_hb m a _ E) as [-> ->]. symmetry. apply firstn_skipn.
    - rewrite partition_bits_spec.
      + destruct (of_bits ([] ++ nb m a ++ [] ++ hb m a)) as (u & Eu & Hu & Eb).
        * rewrite !app_length, nb_length, hb_length. cbn [List.length]. rewrite Nat.add_0_l. apply kt_hf.
        * exists u. cbn [app] in *. unfold nb, hb, bts in *. rewrite Eu. repeat split; assumption.
      + fold (bts a). fold (bts m). now rewrite !bts_length.
  Qed.

  Lemma sum_popcount_mask m : sum_N (map popcount (to_bytes m)) = N.of_nat (kt m).
  Proof. apply sum_popcount. apply law_u8. Qed.

  Lemma weave_spec a m :
    okA a -> exists w, weave_address a m = Ret w /\ okA w /\
      nb m w = firstn (kt m) (bts a) /\ hb m w = skipn (kt m) (bts a).
  Proof.
    intros Ha. unfold weave_address.
    destruct (prefix_from_subnet_mask_bytes (to_bytes m)) as [p|] eqn:E.
    - apply contig_of_prefix in E. exists a. split; [reflexivity|]. split; [assumption|].
      unfold kt. rewrite (contig_ctrue _ _ E). now apply contig_nb_hb.
    - rewrite sum_popcount_mask, Nat2N.id.
      pose proof (kt_hf m) as Hk. pose proof (bts_length a) as Hl.
      change (bytes_to_bits (to_bytes a)) with (bts a). change (bytes_to_bits (to_bytes m)) with (bts m).
      assert (H1 : List.length (firstn (kt m) (bts a)) = kt m) by (rewrite firstn_length; lia).
      assert (H2 : List.length (skipn (kt m) (bts a)) = hf m) by (rewrite skipn_length; lia).
      rewrite weave_loop_spec by assumption. cbn [bind skipn].
      destruct (of_bits (wv (bts m) (firstn (kt m) (bts a)) (skipn (kt m) (bts a)))) as (w & Ew & Hw & Eb).
      + rewrite wv_length by assumption. apply bts_length.
      + rewrite Ew. exists w. split; [reflexivity|]. split; [assumption|]. unfold nb, hb. rewrite Eb.
        split; [now apply select_wv | now apply reject_wv].
  Qed.

  Lemma firstn_app_exact {T} (l1 l2 : list T) k : List.length l1 = k -> firstn k (l1 ++ l2) = l1.
  Proof. intros <-. rewrite firstn_app, Nat.sub_diag, firstn_all. apply app_nil_r. Qed.
  Lemma skipn_app_exact {T} (l1 l2 : list T) k : List.length l1 = k -> skipn k (l1 ++ l2) = l2.
  Proof. intros <-. rewrite skipn_app, Nat.sub_diag, skipn_all. reflexivity. Qed.

  (** Weaving an address whose bits are known as network ++ host. *)
  Lemma weave_app a m xs ys :
    okA a -> bts a = xs ++ ys -> List.length xs = kt m ->
    exists w, weave_address a m = Ret w /\ okA w /\ nb m w = xs /\ hb m w = ys.
  Proof.
    intros Ha E Hx. destruct (weave_spec a m Ha) as (w & Ew & Hw & E1 & E2).
    exists w. repeat split; try assumption.
    - now rewrite E1, E, firstn_app_exact.
    - now rewrite E2, E, skipn_app_exact.
  Qed.

  Lemma weave_unravel a m : okA a -> (u <- unravel_address a m ;; weave_address u m) = Ret a.
  Proof.
    intros Ha. destruct (unravel_spec a m Ha) as (u & -> & Hu & E). cbn [bind].
    destruct (weave_app u m _ _ Hu E (nb_length m a)) as (w & -> & Hw & E1 & E2).
    f_equal. now apply (nb_hb_inj m).
  Qed.

  Lemma unravel_weave a m : okA a -> (w <- weave_address a m ;; unravel_address w m) = Ret a.
  Proof.
    intros Ha. destruct (weave_spec a m Ha) as (w & -> & Hw & E1 & E2). cbn [bind].
    destruct (unravel_spec w m Hw) as (u & -> & Hu & E). f_equal. apply bts_inj; try assumption.
    now rewrite E, E1, E2, firstn_skipn.
  Qed.

  (** ** Order *)
  Definition nv m a : N := bval (nb m a).
  Definition hv m a : N := bval (hb m a).

  Lemma nv_lt m a : nv m a < 2 ^ N.of_nat (kt m).
  Proof. unfold nv. rewrite <- (nb_length m a). apply bval_lt. Qed.
  Lemma hv_lt m a : hv m a < 2 ^ N.of_nat (hf m).
  Proof. unfold hv. rewrite <- (hb_length m a). apply bval_lt. Qed.
  Lemma nv_inj m a b : nv m a = nv m b <-> nb m a = nb m b.
  Proof. unfold nv. split; [|now intros ->]. intros E. apply bval_inj; [now rewrite !nb_length|exact E]. Qed.
  Lemma hv_inj m a b : hv m a = hv m b <-> hb m a = hb m b.
  Proof. unfold hv. split; [|now intros ->]. intros E. apply bval_inj; [now rewrite !hb_length|exact E]. Qed.

  Lemma nv_hv_inj m a b : okA a -> okA b -> nv m a = nv m b -> hv m a = hv m b -> a = b.
  Proof. intros Ha Hb E1 E2. apply (nb_hb_inj m); try assumption; [now apply nv_inj | now apply hv_inj]. Qed.

  Lemma of_nv_hv m x y :
    x < 2 ^ N.of_nat (kt m) -> y < 2 ^ N.of_nat (hf m) ->
    exists a, okA a /\ nv m a = x /\ hv m a = y.
  Proof.
    intros Hx Hy.
    destruct (of_nb_hb m (nbits (kt m) x) (nbits (hf m) y)) as (a & Ha & E1 & E2);
      [apply nbits_length..|].
    exists a. split; [assumption|]. unfold nv, hv. rewrite E1, E2. now rewrite !bval_nbits.
  Qed.

  Lemma compare_host m a b : nv m a = nv m b -> N.compare (v a) (v b) = N.compare (hv m a) (hv m b).
  Proof.
    intros E. apply nv_inj in E. unfold v. rewrite <- (wv_nb_hb m a), <- (wv_nb_hb m b), E.
    apply wv_compare_host; [apply nb_length | apply hb_length | apply hb_length].
  Qed.
  Lemma compare_net m a b : hv m a = hv m b -> N.compare (v a) (v b) = N.compare (nv m a) (nv m b).
  Proof.
    intros E. apply hv_inj in E. unfold v. rewrite <- (wv_nb_hb m a), <- (wv_nb_hb m b), E.
    apply wv_compare_net; [apply nb_length | apply nb_length | apply hb_length].
  Qed.
  Lemma host_lt m a b : nv m a = nv m b -> (v a < v b <-> hv m a < hv m b).
  Proof. intros E. unfold N.lt. now rewrite (compare_host m a b E). Qed.
  Lemma host_le m a b : nv m a = nv m b -> (v a <= v b <-> hv m a <= hv m b).
  Proof. intros E. unfold N.le. now rewrite (compare_host m a b E). Qed.
  Lemma net_lt m a b : hv m a = hv m b -> (v a < v b <-> nv m a < nv m b).
  Proof. intros E. unfold N.lt. now rewrite (compare_net m a b E). Qed.
  Lemma net_le m a b : hv m a = hv m b -> (v a <= v b <-> nv m a <= nv m b).
  Proof. intros E. unfold N.le. now rewrite (compare_net m a b E). Qed.

  Lemma contig_v m a p : contig (bts m) p -> v a = nv m a * 2 ^ N.of_nat (hf m) + hv m a.
  Proof.
    intros Hc. unfold nv, hv, v. rewrite <- (hb_length m a), <- bval_app.
    destruct (contig_nb_hb m a p Hc) as [-> ->]. now rewrite firstn_skipn.
  Qed.

  (** Value of an unravelled address. *)
  Lemma unravel_value a m :
    okA a -> exists u, unravel_address a m = Ret u /\ okA u /\ bts u = nb m a ++ hb m a /\
                       v u = nv m a * 2 ^ N.of_nat (hf m) + hv m a.
  Proof.
    intros Ha. destruct (unravel_spec a m Ha) as (u & Eu & Hu & E). exists u. repeat split; try assumption.
    unfold v. rewrite E, bval_app, hb_length. reflexivity.
  Qed.

  (** Weaving an address of known value. *)
  Lemma weave_value u m x y :
    okA u -> v u = x * 2 ^ N.of_nat (hf m) + y -> y < 2 ^ N.of_nat (hf m) ->
    exists w, weave_address u m = Ret w /\ okA w /\ nv m w = x /\ hv m w = y.
  Proof.
    intros Hu E Hy.
    assert (Hx : x < 2 ^ N.of_nat (kt m)).
    { pose proof (v_lt u) as Hv. rewrite <- (kt_hf m), Nat2N.inj_add, N.pow_add_r in Hv. nia. }
    destruct (weave_app u m (nbits (kt m) x) (nbits (hf m) y)) as (w & Ew & Hw & E1 & E2).
    - assumption.
    - apply bval_inj.
      + rewrite app_length, !nbits_length, bts_length. symmetry. apply kt_hf.
      + fold (v u). rewrite E, bval_app, nbits_length, !bval_nbits by assumption. reflexivity.
    - apply nbits_length.
    - exists w. repeat split; try assumption; unfold nv, hv; rewrite ?E1, ?E2; now apply bval_nbits.
  Qed.

  (** ** Networks *)
  Record okN n : Prop := {
    okN_base : okA (base_addr n);
    okN_mask : okA (subnet_mask n);
    okN_host : hv (subnet_mask n) (base_addr n) = 0;
    okN_prefix : cidr_prefix n = prefix_from_subnet_mask_bytes (to_bytes (subnet_mask n))
  }.

  Definition mem n a : Prop := nv (subnet_mask n) a = nv (subnet_mask n) (base_addr n).

  Lemma nb_band m a : okA a -> okA m -> nb m (band a m) = nb m a.
  Proof.
    intros Ha Hm. destruct (law_and a m Ha Hm) as [_ E]. unfold nb. rewrite E.
    apply select_and. now rewrite !bts_length.
  Qed.
  Lemma hb_band m a : okA a -> okA m -> hb m (band a m) = repeat false (hf m).
  Proof.
    intros Ha Hm. destruct (law_and a m Ha Hm) as [_ E]. unfold hb. rewrite E.
    apply reject_and. now rewrite !bts_length.
  Qed.
  Lemma nv_band m a : okA a -> okA m -> nv m (band a m) = nv m a.
  Proof. intros. unfold nv. now rewrite nb_band. Qed.
  Lemma hv_band m a : okA a -> okA m -> hv m (band a m) = 0.
  Proof. intros. unfold hv. rewrite hb_band by assumption. apply bval_repeat_false. Qed.

  Lemma okN_with_mask a m : okA a -> okA m -> okN (new_with_mask a m).
  Proof.
    intros Ha Hm. constructor; cbn.
    - now apply law_and.
    - assumption.
    - now apply hv_band.
    - reflexivity.
  Qed.

  Lemma with_mask_mem a m : okA a -> okA m -> mem (new_with_mask a m) a.
  Proof. intros. unfold mem. cbn. symmetry. now apply nv_band. Qed.

  (** A network is determined by its mask and its network bits. *)
  Lemma okN_ext n n' :
    okN n -> okN n' -> subnet_mask n = subnet_mask n' -> base_addr n = base_addr n' -> n = n'.
  Proof.
    intros [] [] Em Eb. destruct n as [b0 m0 p0], n' as [b1 m1 p1]; cbn in *. subst. reflexivity.
  Qed.

  (** The CIDR mask of a prefix. *)
  Lemma prefix_of_mask p m :
    (N.to_nat p <= W)%nat ->
    bts m = repeat true (N.to_nat p) ++ repeat false (W - N.to_nat p) ->
    prefix_from_subnet_mask_bytes (to_bytes m) = Some p.
  Proof.
    intros Hp E. apply contig_of_prefix. apply contig_repeat. rewrite bts_length. auto.
  Qed.

  Lemma with_prefix_spec a p :
    okA a ->
    exists m, okA m /\
      bts m = repeat true (Nat.min (N.to_nat p) W) ++ repeat false (W - Nat.min (N.to_nat p) W) /\
      new_with_prefix a p = Ret {| base_addr := band a m; subnet_mask := m; cidr_prefix := Some p |}.
  Proof.
    intros Ha. destruct (from_mask_bytes p) as (m & E & Hm & Eb).
    exists m. split; [assumption|]. split; [assumption|].
    unfold new_with_prefix. rewrite law_byte_count, E. reflexivity.
  Qed.

  Lemma with_prefix_mask a p :
    okA a -> p <= N.of_nat W ->
    exists m, okA m /\ bts m = repeat true (N.to_nat p) ++ repeat false (W - N.to_nat p) /\
      new_with_prefix a p = Ret (new_with_mask a m).
  Proof.
    intros Ha Hp. destruct (with_prefix_spec a p Ha) as (m & Hm & Eb & E).
    rewrite Nat.min_l in Eb by lia. exists m. split; [assumption|]. split; [assumption|].
    rewrite E. unfold new_with_mask. rewrite (prefix_of_mask p m); [reflexivity|lia|assumption].
  Qed.

  Lemma okN_cidr n p : okN n -> cidr_prefix n = Some p -> contig (bts (subnet_mask n)) (N.to_nat p).
  Proof. intros [] E. apply contig_of_prefix. congruence. Qed.

  Lemma contig_kt m p : contig (bts m) p -> kt m = p /\ hf m = (W - p)%nat.
  Proof.
    intros Hc. pose proof (contig_ctrue _ _ Hc) as E. unfold kt. split; [exact E|].
    pose proof (kt_hf m) as K. unfold kt in K. lia.
  Qed.

  (** ** Counts *)
  Lemma wildcard_bits n :
    okN n -> okA (cisco_wildcard n) /\ bts (cisco_wildcard n) = map negb (bts (subnet_mask n)).
  Proof. intros []. now apply law_neg. Qed.

  Lemma host_bits_spec n : okN n -> host_bits_available n = N.of_nat (hf (subnet_mask n)).
  Proof.
    intros Hn. unfold host_bits_available. rewrite sum_popcount_mask. f_equal.
    unfold kt. destruct (wildcard_bits n Hn) as [_ ->]. apply ctrue_negb.
  Qed.

  Lemma iter_double k x : N.iter k (fun r => r * 2) x = x * 2 ^ k.
  Proof.
    induction k using N.peano_ind; [cbn; lia|].
    rewrite N.iter_succ, IHk, N.pow_succ_r'. lia.
  Qed.

  Lemma address_count_fold bs x :
    fold_left (fun ret (x : N) => N.iter (popcount x) (fun ret => ret * 2) ret) bs x =
    x * 2 ^ sum_N (map popcount bs).
  Proof.
    revert x; induction bs as [|y bs IH]; intros x.
    - cbn. lia.
    - cbn [fold_left map]. rewrite IH, iter_double, sum_N_cons, N.pow_add_r. lia.
  Qed.

  Lemma address_count_spec n : okN n -> address_count n = 2 ^ N.of_nat (hf (subnet_mask n)).
  Proof.
    intros Hn. unfold address_count. rewrite address_count_fold.
    fold (host_bits_available n). rewrite host_bits_spec by assumption. lia.
  Qed.

  (** ** First host, broadcast, last host, next base *)
  Notation mk n := (subnet_mask n).
  Notation bs n := (base_addr n).
  Notation h n := (N.of_nat (hf (subnet_mask n))).
  Notation k n := (N.of_nat (kt (subnet_mask n))).

  Lemma pow_W m : 2 ^ N.of_nat W = 2 ^ N.of_nat (kt m) * 2 ^ N.of_nat (hf m).
  Proof. rewrite <- (kt_hf m), Nat2N.inj_add, N.pow_add_r. reflexivity. Qed.

  Lemma add_offset_1 a :
    okA a ->
    (v a + 1 < 2 ^ N.of_nat W /\ exists c, add_offset a 1 = Ret (Some c) /\ okA c /\ v c = v a + 1) \/
    (v a + 1 = 2 ^ N.of_nat W /\ add_offset a 1 = Ret None).
  Proof.
    intros Ha. destruct (law_add_offset a 1 Ha) as (r & E & Hr); [unfold i32_max; lia|].
    pose proof (v_lt a) as Hv. change (Z.to_N 1) with 1 in Hr. fold W in Hr.
    destruct r as [c|].
    - destruct Hr as [Hc Ec]. left. pose proof (v_lt c). split; [lia|]. exists c. auto.
    - right. split; [lia|assumption].
  Qed.

  Lemma map_repeat {X Y} (f : X -> Y) x j : map f (repeat x j) = repeat (f x) j.
  Proof. induction j; cbn; congruence. Qed.

  Lemma pow2_ge2 x : 1 <= x -> 2 <= 2 ^ x.
  Proof. intros Hx. change 2 with (2 ^ 1) at 1. apply N.pow_le_mono_r; lia. Qed.
  Lemma pow2_ge4 x : 2 <= x -> 4 <= 2 ^ x.
  Proof. intros Hx. change 4 with (2 ^ 2). apply N.pow_le_mono_r; lia. Qed.

  Lemma first_host_spec n :
    okN n ->
    if h n <? 2 then first_host_addr n = Ret None
    else exists a, first_host_addr n = Ret (Some a) /\ okA a /\ mem n a /\ hv (mk n) a = 1.
  Proof.
    intros Hn. unfold first_host_addr. rewrite host_bits_spec by assumption.
    destruct (N.ltb_spec (h n) 2) as [Hh|Hh]; [reflexivity|].
    destruct (unravel_value (bs n) (mk n)) as (u & -> & Hu & _ & Ev); [apply Hn|]. cbn [bind].
    rewrite (okN_host n Hn) in Ev.
    pose proof (nv_lt (mk n) (bs n)) as Hnv. pose proof (pow2_ge4 _ Hh) as H4.
    pose proof (pow_W (mk n)) as HW.
    destruct (add_offset_1 u Hu) as [(_ & c & -> & Hc & Ec)|[Hov _]]; [|nia]. cbn [bind].
    destruct (weave_value c (mk n) (nv (mk n) (bs n)) 1) as (w & -> & Hw & E1 & E2).
    - assumption.
    - rewrite Ec, Ev. lia.
    - lia.
    - exists w. cbn [bind]. auto.
  Qed.

  Lemma unraveled_broadcast_spec n :
    okN n ->
    exists u, unraveled_broadcast n = Ret (Some u) /\ okA u /\
              v u = nv (mk n) (bs n) * 2 ^ h n + (2 ^ h n - 1).
  Proof.
    intros Hn. unfold unraveled_broadcast. rewrite host_bits_spec by assumption.
    destruct (unravel_value (bs n) (mk n)) as (u & -> & Hu & _ & Ev); [apply Hn|]. cbn [bind].
    rewrite (okN_host n Hn) in Ev.
    rewrite law_len, law_byte_count. unfold usize_sub.
    pose proof (kt_hf (mk n)) as Hkh. unfold W in Hkh.
    destruct (N.ltb_spec (N.of_nat (nby * 8)) (h n)); [lia|]. cbn [bind].
    replace (N.of_nat (nby * 8) - h n) with (k n) by lia.
    destruct (from_mask_bytes (k n)) as (hca & -> & Hhca & Eb). cbn [bind unwrap].
    rewrite Nat2N.id in Eb. rewrite Nat.min_l in Eb by (unfold W; lia).
    replace (W - kt (mk n))%nat with (hf (mk n)) in Eb by (unfold W; lia).
    destruct (law_neg hca Hhca) as [Hneg Eneg].
    assert (Evn : v (bitwise_negate hca) = 2 ^ h n - 1).
    { unfold v. rewrite Eneg, Eb, map_app, !map_repeat. cbn [negb].
      rewrite bval_app, bval_repeat_false, bval_repeat_true. lia. }
    pose proof (law_add u _ Hu Hneg) as S.
    pose proof (nv_lt (mk n) (bs n)) as Hnv. pose proof (pow_W (mk n)) as HW.
    pose proof (pow2_pos (h n)) as Hpos. fold W in S.
    destruct (add_addr u (bitwise_negate hca)) as [c|].
    - destruct S as [Hc Ec]. exists c. repeat split; try assumption. lia.
    - exfalso. nia.
  Qed.

  Lemma broadcast_spec n :
    okN n ->
    if h n <? 1 then broadcast_addr n = Ret None
    else exists a, broadcast_addr n = Ret (Some a) /\ okA a /\ mem n a /\
                   hv (mk n) a = 2 ^ h n - 1.
  Proof.
    intros Hn. unfold broadcast_addr. rewrite host_bits_spec by assumption.
    destruct (N.ltb_spec (h n) 1) as [Hh|Hh]; [reflexivity|].
    destruct (unraveled_broadcast_spec n Hn) as (u & -> & Hu & Ev). cbn [bind].
    pose proof (pow2_pos (h n)).
    destruct (weave_value u (mk n) (nv (mk n) (bs n)) (2 ^ h n - 1)) as (w & -> & Hw & E1 & E2);
      [assumption|assumption|lia|].
    exists w. cbn [bind]. auto.
  Qed.

  Lemma last_addr_spec n :
    okN n ->
    exists a, last_addr_of_subnet n = Ret a /\ okA a /\ mem n a /\ hv (mk n) a = 2 ^ h n - 1.
  Proof.
    intros Hn. unfold last_addr_of_subnet. pose proof (broadcast_spec n Hn) as S.
    destruct (N.ltb_spec (h n) 1) as [Hh|Hh].
    - rewrite S. cbn [bind]. exists (bs n). split; [reflexivity|]. split; [apply Hn|]. split; [reflexivity|].
      rewrite (okN_host n Hn). replace (h n) with 0 by lia. reflexivity.
    - destruct S as (a & -> & S). exists a. auto.
  Qed.

  Lemma last_host_spec n :
    okN n ->
    if h n <? 2 then last_host_addr n = Ret None
    else exists a, last_host_addr n = Ret (Some a) /\ okA a /\ mem n a /\ hv (mk n) a = 2 ^ h n - 2.
  Proof.
    intros Hn. unfold last_host_addr. rewrite host_bits_spec by assumption.
    destruct (N.ltb_spec (h n) 2) as [Hh|Hh]; [reflexivity|].
    destruct (unraveled_broadcast_spec n Hn) as (u & -> & Hu & Ev). cbn [bind].
    pose proof (pow2_ge4 _ Hh) as H4.
    assert (E2h : 2 ^ h n = 2 * 2 ^ (h n - 1)).
    { rewrite <- N.pow_succ_r'. f_equal. lia. }
    destruct (law_sub_1 u Hu) as (c & -> & Hc & Ec).
    { rewrite Ev, E2h.
      replace (nv (mk n) (bs n) * (2 * 2 ^ (h n - 1)) + (2 * 2 ^ (h n - 1) - 1))
        with (2 * (nv (mk n) (bs n) * 2 ^ (h n - 1) + 2 ^ (h n - 1) - 1) + 1) by nia.
      now rewrite N.add_comm, N.odd_add_mul_2. }
    cbn [bind].
    destruct (weave_value c (mk n) (nv (mk n) (bs n)) (2 ^ h n - 2)) as (w & -> & Hw & E1 & E2);
      [assumption|rewrite Ec, Ev; lia|lia|].
    exists w. cbn [bind]. auto.
  Qed.

  Lemma next_base_spec n :
    okN n ->
    if nv (mk n) (bs n) + 1 <? 2 ^ k n
    then exists a, next_subnet_base_addr n = Ret (Some a) /\ okA a /\
                   nv (mk n) a = nv (mk n) (bs n) + 1 /\ hv (mk n) a = 0
    else next_subnet_base_addr n = Ret None.
  Proof.
    intros Hn. unfold next_subnet_base_addr.
    destruct (unraveled_broadcast_spec n Hn) as (u & -> & Hu & Ev). cbn [bind].
    pose proof (nv_lt (mk n) (bs n)) as Hnv. pose proof (pow2_pos (h n)) as Hpos.
    pose proof (pow_W (mk n)) as HW.
    destruct (add_offset_1 u Hu) as [(Hlt & c & -> & Hc & Ec)|[Hov ->]]; cbn [bind].
    - destruct (N.ltb_spec (nv (mk n) (bs n) + 1) (2 ^ k n)); [|nia].
      destruct (weave_value c (mk n) (nv (mk n) (bs n) + 1) 0) as (w & -> & Hw & E1 & E2);
        [assumption|rewrite Ec, Ev; lia|lia|].
      exists w. cbn [bind]. auto.
    - destruct (N.ltb_spec (nv (mk n) (bs n) + 1) (2 ^ k n)); [nia|reflexivity].
  Qed.

  (** ** Comparison helpers *)
  Lemma altb_spec a b : okA a -> okA b -> altb a b = (v a <? v b).
  Proof. intros. unfold altb. rewrite law_cmp by assumption. reflexivity. Qed.
  Lemma aleb_spec a b : okA a -> okA b -> aleb a b = (v a <=? v b).
  Proof. intros. unfold aleb. rewrite law_cmp by assumption. unfold N.leb. now destruct (v a ?= v b). Qed.
  Lemma aeqb_v a b : okA a -> okA b -> aeqb a b = (v a =? v b).
  Proof.
    intros Ha Hb. apply eq_true_iff_eq. rewrite law_eqb, N.eqb_eq. split; [now intros ->|].
    now apply v_inj.
  Qed.
  Lemma aeqb_refl a : aeqb a a = true.
  Proof. now apply law_eqb. Qed.

  (** ** contains, is_superset_of, intersects *)
  Lemma contains_mem n a : okN n -> okA a -> (contains n a = true <-> mem n a).
  Proof.
    intros Hn Ha. unfold contains, mem. rewrite law_eqb.
    pose proof (okN_base n Hn) as Hb. pose proof (okN_mask n Hn) as Hm. split.
    - intros E. rewrite <- E. symmetry. now apply nv_band.
    - intros E. apply (nv_hv_inj (mk n)).
      + now apply law_and.
      + assumption.
      + now rewrite nv_band.
      + rewrite hv_band by assumption. symmetry. apply Hn.
  Qed.

  Lemma mem_base n : mem n (bs n).
  Proof. reflexivity. Qed.
End Facts.
