(** * Pf_Net: proofs for P_Net *)
From Verif Require Import RustBase Addr BitManip Cidr Net Spec Bits Weave Bytes Laws NetFacts SetFacts Family Demo.
From Coq Require Import ZifyBool ZifyNat ZifyN.
Ltac Zify.zify_post_hook ::= Z.div_mod_to_equations.

Lemma hv0_no_host `{R : Rust} {F} (m a : addr F) : valid m -> valid a -> (hv m a = 0 <-> no_host_bits m a).
Proof.
  intros Hm Ha. rewrite hv0_testbit, !value_v, <- width_W by assumption. reflexivity.
Qed.

Lemma c17_with_mask : forall (R : Rust) (F : family) (a m : addr F),
  valid a -> valid m ->
  let n := new_with_mask a m in
  wf_net n /\ member n a /\ subnet_mask n = m /\ value (base_addr n) = N.land (value a) (value m).
Proof.
  intros R F a m Ha Hm n. pose proof Ha as Ha'. pose proof Hm as Hm'. apply valid_ok in Ha', Hm'.
  assert (Hn : wf_net n) by (apply wf_okN; now apply okN_with_mask).
  split; [assumption|]. split; [apply member_wf; [assumption|assumption|]; now apply with_mask_mem|].
  split; [reflexivity|]. cbn. rewrite <- !value_v; try assumption; [now apply v_and|].
  apply valid_ok. now apply law_and.
Qed.

Lemma mask_value `{R : Rust} {F} (m : addr F) p :
  valid m -> p <= width F ->
  (bts m = repeat true (N.to_nat p) ++ repeat false (@W (addr F) _ _ - N.to_nat p) <-> value m = prefix_mask F p).
Proof.
  intros Hm Hp. transitivity (contiguous F (value m) p).
  - rewrite <- contig_contiguous, contig_repeat, bts_length by assumption.
    rewrite width_W in Hp. split; [|tauto]. intros. split; [lia|assumption].
  - unfold contiguous. tauto.
Qed.

Lemma c17_with_prefix : forall (R : Rust) (F : family) (a : addr F) (p : N),
  valid a -> p <= width F ->
  exists n, new_with_prefix a p = Ret n /\ is_cidr n p /\ member n a /\
    value (subnet_mask n) = prefix_mask F p /\ value (base_addr n) = N.land (value a) (prefix_mask F p) /\
    (forall m, valid m -> value m = prefix_mask F p -> new_with_mask a m = n).
Proof.
  intros R F a p Ha Hp. pose proof Ha as Ha'. apply valid_ok in Ha'. pose proof Hp as Hp'.
  rewrite width_W in Hp'. destruct (with_prefix_mask a p Ha' Hp') as (m & Hm' & Eb & E).
  pose proof Hm' as Hm. apply valid_ok in Hm. apply mask_value in Eb; [|assumption|assumption].
  destruct (c17_with_mask R F a m Ha Hm) as (Hn & Hmem & Em & Ebase).
  exists (new_with_mask a m). split; [assumption|]. split.
  { split; [assumption|]. apply (wf_prefix _ Hn). split; assumption. }
  split; [assumption|]. split; [assumption|]. split; [now rewrite Ebase, Eb|].
  intros m' Hm2 Ev. f_equal. apply value_inj; try assumption. congruence.
Qed.

Lemma c17_with_prefix_total : forall (R : Rust) (F : family) (a : addr F) (p : N),
  valid a ->
  exists n, new_with_prefix a p = Ret n /\ cidr_prefix n = Some p /\
            value (subnet_mask n) = prefix_mask F (N.min p (width F)).
Proof.
  intros R F a p Ha. pose proof Ha as Ha'. apply valid_ok in Ha'.
  destruct (with_prefix_spec a p Ha') as (m & Hm' & Eb & E). apply valid_ok in Hm'.
  eexists. split; [exact E|]. split; [reflexivity|]. cbn [subnet_mask].
  apply mask_value; [assumption|lia|]. rewrite Eb, width_W.
  replace (N.to_nat (N.min p (N.of_nat (@W (addr F) _ _)))) with (Nat.min (N.to_nat p) (@W (addr F) _ _)) by lia. reflexivity.
Qed.

Lemma base_eq_no_host `{R : Rust} {F} (a m : addr F) :
  valid a -> valid m -> (aeqb (band a m) a = true <-> no_host_bits m a).
Proof.
  intros Ha Hm. rewrite <- hv0_no_host by assumption. apply valid_ok in Ha. apply valid_ok in Hm.
  rewrite law_eqb. split.
  - intros <-. now apply hv_band.
  - intros E. apply (nv_hv_inj m); [now apply law_and|assumption|now apply nv_band|].
    rewrite E. now apply hv_band.
Qed.

Lemma c18_strict_mask : forall (R : Rust) (F : family) (a m : addr F) (n : net F),
  valid a -> valid m ->
  (new_with_mask_strict a m = Some n <-> no_host_bits m a /\ n = new_with_mask a m).
Proof.
  intros R F a m n Ha Hm. unfold new_with_mask_strict. cbn [base_addr new_with_mask].
  pose proof (base_eq_no_host a m Ha Hm) as E. destruct (aeqb (band a m) a).
  - split; [intros H; injection H as <-|intros [_ ->]; reflexivity]. split; [now apply E|reflexivity].
  - split; [discriminate|]. intros [H _]. apply E in H. discriminate.
Qed.

Lemma c18_strict_prefix : forall (R : Rust) (F : family) (a : addr F) (p : N),
  valid a -> p <= width F ->
  exists n, new_with_prefix a p = Ret n /\
    (value a mod 2 ^ (width F - p) = 0 -> new_with_prefix_strict a p = Ret (Some n)) /\
    (value a mod 2 ^ (width F - p) <> 0 -> new_with_prefix_strict a p = Ret None).
Proof.
  intros R F a p Ha Hp. destruct (c17_with_prefix R F a p Ha Hp) as (n & E & Hn & Hmem & Em & Eb & Hu).
  exists n. split; [assumption|]. unfold new_with_prefix_strict. rewrite E. cbn [bind].
  destruct Hn as [Hn _]. pose proof (wf_base _ Hn) as Hb. pose proof (wf_mask _ Hn) as Hmm.
  pose proof (Hu _ Hmm Em) as En.
  pose proof (base_eq_no_host a (subnet_mask n) Ha Hmm) as X.
  change (band a (subnet_mask n)) with (base_addr (new_with_mask a (subnet_mask n))) in X. rewrite En in X.
  assert (Y : no_host_bits (subnet_mask n) a <-> value a mod 2 ^ (width F - p) = 0).
  { rewrite <- hv0_no_host by assumption.
    assert (Hc : contig (bts (subnet_mask n)) (N.to_nat p)) by (apply contig_contiguous; [assumption|split; assumption]).
    rewrite <- value_v by assumption. rewrite (contig_v _ a _ Hc).
    destruct (contig_kt _ _ Hc) as [_ Hh].
    replace (width F - p) with (N.of_nat (hf (subnet_mask n))) by (rewrite width_W; lia).
    rewrite N.add_comm, N.mod_add by (apply N.pow_nonzero; lia).
    rewrite N.mod_small by apply hv_lt. reflexivity. }
  destruct (aeqb (base_addr n) a); split; intros H; try reflexivity; exfalso.
  - now apply H, Y, X.
  - apply Y, X in H. discriminate.
Qed.

Lemma c19_contains : forall (R : Rust) (F : family) (n : net F) (a : addr F),
  wf_net n -> valid a -> (contains n a = true <-> member n a).
Proof.
  intros R F n a Hn Ha. rewrite member_wf by assumption.
  apply contains_mem; [now apply wf_okN|now apply valid_ok].
Qed.

Lemma c19_contains_cidr : forall (R : Rust) (F : family) (n : net F) (p : N) (a : addr F),
  is_cidr n p -> valid a ->
  (contains n a = true <-> value (base_addr n) <= value a < value (base_addr n) + 2 ^ (width F - p)).
Proof.
  intros R F n p a Hn Ha. rewrite c19_contains by (assumption || apply Hn). now apply member_interval.
Qed.

Lemma includes_mem `{R : Rust} {F} (n n' : net F) :
  wf_net n -> wf_net n' -> (includes n n' <-> forall a, okA a -> mem n' a -> mem n a).
Proof.
  intros Hn Hn'. unfold includes. split; intros H a Ha.
  - apply valid_ok in Ha. rewrite <- !member_wf by assumption. auto.
  - rewrite !member_wf by assumption. apply H. now apply valid_ok.
Qed.

Lemma c20_superset : forall (R : Rust) (F : family) (n n' : net F),
  wf_net n -> wf_net n' -> (is_superset_of n n' = true <-> includes n n').
Proof.
  intros R F n n' Hn Hn'. rewrite includes_mem by assumption.
  apply superset_spec; now apply wf_okN.
Qed.

Lemma c20_subset : forall (R : Rust) (F : family) (n n' : net F),
  wf_net n -> wf_net n' -> (is_subset_of n n' = true <-> includes n' n).
Proof. intros R F n n' Hn Hn'. unfold is_subset_of. now apply c20_superset. Qed.

Lemma c21_partial_order : forall (R : Rust) (F : family) (n1 n2 n3 : net F),
  wf_net n1 -> wf_net n2 -> wf_net n3 ->
  is_superset_of n1 n1 = true /\
  (is_superset_of n1 n2 = true -> is_superset_of n2 n3 = true -> is_superset_of n1 n3 = true) /\
  (is_superset_of n1 n2 = true -> is_superset_of n2 n1 = true -> n1 = n2).
Proof.
  intros R F n1 n2 n3 H1 H2 H3. apply wf_okN in H1. apply wf_okN in H2. apply wf_okN in H3.
  split; [now apply superset_refl|]. split.
  - intros. now apply superset_trans with n2.
  - intros. now apply superset_antisym.
Qed.

Lemma c21_extensionality : forall (R : Rust) (F : family) (n n' : net F),
  wf_net n -> wf_net n' -> (forall a, valid a -> (member n a <-> member n' a)) -> n = n'.
Proof.
  intros R F n n' Hn Hn' E.
  destruct (c21_partial_order R F n n' n Hn Hn' Hn) as (_ & _ & Hanti).
  apply Hanti; apply c20_superset; try assumption; intros a Ha; now apply E.
Qed.

Lemma share_mem `{R : Rust} {F} (n n' : net F) :
  wf_net n -> wf_net n' -> (share n n' <-> exists a, okA a /\ mem n a /\ mem n' a).
Proof.
  intros Hn Hn'. unfold share. split; intros (a & Ha & H); exists a.
  - rewrite !member_wf in H by assumption. split; [now apply valid_ok|assumption].
  - apply valid_ok in Ha. rewrite !member_wf by assumption. auto.
Qed.

Lemma c22_intersects_cidr : forall (R : Rust) (F : family) (n n' : net F) (p p' : N),
  is_cidr n p -> is_cidr n' p' ->
  exists r, intersects n n' = Ret r /\ (r = true <-> share n n').
Proof.
  intros R F n n' p p' Hn Hn'. pose proof (share_mem n n' (proj1 Hn) (proj1 Hn')) as X.
  apply is_cidr_cidr in Hn. apply is_cidr_cidr in Hn'.
  destruct (intersects_cidr n n' (proj1 Hn) (proj1 Hn')) as (r & E & H).
  exists r. split; [assumption|]. now rewrite X.
Qed.

Lemma c22_intersects_complete : forall (R : Rust) (F : family) (n n' : net F),
  wf_net n -> wf_net n' ->
  exists r, intersects n n' = Ret r /\ (share n n' -> r = true).
Proof.
  intros R F n n' Hn Hn'. pose proof (share_mem n n' Hn Hn') as X.
  apply wf_okN in Hn. apply wf_okN in Hn'.
  destruct (intersects_ret n n' Hn Hn') as (r & E & H). exists r. split; [assumption|]. now rewrite X.
Qed.

Lemma highest_unique `{R : Rust} {F} (n : net F) a b : highest n a -> highest n b -> a = b.
Proof.
  intros (Ha & Ma & Xa) (Hb & Mb & Xb). apply value_inj; try assumption.
  specialize (Xa b Hb Mb). specialize (Xb a Ha Ma). lia.
Qed.

Lemma c25_last_addr : forall (R : Rust) (F : family) (n : net F),
  wf_net n -> exists a, last_addr_of_subnet n = Ret a /\ highest n a.
Proof.
  intros R F n Hn. pose proof Hn as Hn'. apply wf_okN in Hn'.
  destruct (last_addr_max n Hn') as (a & E & Ha & Hm & Hmax). apply valid_ok in Ha.
  exists a. split; [assumption|]. split; [assumption|]. rewrite member_wf by assumption.
  split; [assumption|]. intros b Hb. rewrite member_wf by assumption. intros Hmb.
  specialize (Hmax b Hmb). rewrite !value_v in Hmax by assumption. assumption.
Qed.

Lemma c22_intersects_exact : forall (R : Rust) (F : family) (n n' : net F) (h h' : addr F),
  wf_net n -> wf_net n' -> highest n h -> highest n' h' ->
  intersects n n' = Ret ((value (base_addr n) <=? value h') && (value (base_addr n') <=? value h)).
Proof.
  intros R F n n' h h' Hn Hn' Hh Hh'. unfold intersects.
  destruct (c25_last_addr R F n Hn) as (l & -> & Hl).
  destruct (c25_last_addr R F n' Hn') as (l' & -> & Hl'). cbn [bind].
  rewrite (highest_unique n l h) by assumption. rewrite (highest_unique n' l' h') by assumption.
  destruct Hh as [Hh _], Hh' as [Hh' _].
  pose proof (wf_base _ Hn). pose proof (wf_base _ Hn').
  rewrite !aleb_spec, !value_v by (try assumption; now apply valid_ok). reflexivity.
Qed.

Lemma c22_intersects_mixed_refuted : exists (n n' : net V4),
  wf_net n /\ wf_net n' /\ @intersects debug_env (addr V4) ipv4_ops n n' = Ret true /\ ~ share n n'.
Proof.
  pose (n := @new_with_mask (addr V4) ipv4_ops (ip4 10 0 0 0) (ip4 255 0 255 0)).
  pose (n' := @new_with_mask (addr V4) ipv4_ops (ip4 10 0 1 0) (ip4 255 0 255 0)).
  exists n, n'. split; [|split; [|split]].
  - now apply (c17_with_mask debug_env V4).
  - now apply (c17_with_mask debug_env V4).
  - vm_compute. reflexivity.
  - intros (a & Ha & M & M'). specialize (M 8 eq_refl eq_refl). specialize (M' 8 eq_refl eq_refl).
    rewrite M in M'. discriminate.
Qed.

(** Counting *)
Definition addr_at `{R : Rust} {F} (n : net F) (j : N) : addr F :=
  match @from_bytes (addr F) (addr_ops F) (bits_to_bytes (wv (bts (subnet_mask n)) (nb (subnet_mask n) (base_addr n))
                                      (nbits (hf (subnet_mask n)) j))) with
  | Some a => a
  | None => base_addr n
  end.

Lemma addr_at_spec `{R : Rust} {F} (n : net F) j :
  wf_net n -> j < size n ->
  valid (addr_at n j) /\ member n (addr_at n j) /\ hv (subnet_mask n) (addr_at n j) = j.
Proof.
  intros Hn Hj. unfold addr_at.
  destruct (of_bits (A := addr F) (wv (bts (subnet_mask n)) (nb (subnet_mask n) (base_addr n))
                        (nbits (hf (subnet_mask n)) j))) as (a & -> & Ha & E).
  { rewrite wv_length; [apply bts_length|apply nb_length|apply nbits_length]. }
  apply valid_ok in Ha. split; [assumption|]. rewrite member_wf by assumption.
  unfold mem, nv, hv. unfold nb at 1. unfold hb. rewrite E.
  rewrite select_wv by (apply nb_length || apply nbits_length).
  rewrite reject_wv by (apply nb_length || apply nbits_length).
  split; [reflexivity|]. now apply bval_nbits.
Qed.

Lemma addr_at_hv `{R : Rust} {F} (n : net F) a :
  wf_net n -> valid a -> member n a -> addr_at n (hv (subnet_mask n) a) = a.
Proof.
  intros Hn Ha Hm.
  destruct (addr_at_spec n (hv (subnet_mask n) a) Hn (hv_lt _ _)) as (Hv & Hm' & Hh).
  rewrite member_wf in Hm, Hm' by assumption.
  apply (nv_hv_inj (subnet_mask n)); try (now apply valid_ok); try assumption.
  unfold mem in *. congruence.
Qed.

Definition all_addrs `{R : Rust} {F} (n : net F) : list (addr F) :=
  map (fun j => addr_at n (N.of_nat j)) (seq 0 (N.to_nat (size n))).

Lemma NoDup_map_inj {X Y} (f : X -> Y) l :
  (forall x y, In x l -> In y l -> f x = f y -> x = y) -> NoDup l -> NoDup (map f l).
Proof.
  intros Hinj Hnd. induction Hnd as [|x l Hx Hnd IH]; cbn; constructor.
  - intros Hin. apply in_map_iff in Hin. destruct Hin as (y & E & Hy).
    apply Hinj in E; [|now right|now left]. now subst.
  - apply IH. intros; apply Hinj; auto using in_cons.
Qed.

Lemma all_addrs_spec `{R : Rust} {F} (n : net F) :
  wf_net n ->
  NoDup (all_addrs n) /\ (forall a, In a (all_addrs n) <-> valid a /\ member n a) /\
  N.of_nat (List.length (all_addrs n)) = size n.
Proof.
  intros Hn. split; [|split].
  - apply NoDup_map_inj; [|apply seq_NoDup]. intros x y Hx Hy E. apply in_seq in Hx, Hy.
    destruct (addr_at_spec n (N.of_nat x) Hn) as (_ & _ & E1); [lia|].
    destruct (addr_at_spec n (N.of_nat y) Hn) as (_ & _ & E2); [lia|].
    rewrite E in E1. lia.
  - intros a. unfold all_addrs. rewrite in_map_iff. split.
    + intros (j & <- & Hj). apply in_seq in Hj.
      destruct (addr_at_spec n (N.of_nat j) Hn) as (H1 & H2 & _); [lia|]. auto.
    + intros [Ha Hm]. exists (N.to_nat (hv (subnet_mask n) a)). rewrite N2Nat.id.
      split; [now apply addr_at_hv|]. apply in_seq. pose proof (hv_lt (subnet_mask n) a).
      fold (size n) in H. lia.
  - unfold all_addrs. rewrite map_length, seq_length. lia.
Qed.

Lemma count_unique {F} (n : net F) k k' : count n k -> count n k' -> k = k'.
Proof.
  intros (l & N1 & H1 & E1) (l' & N2 & H2 & E2). rewrite <- E1, <- E2. f_equal.
  apply Nat.le_antisymm; apply NoDup_incl_length; try assumption; intros a Ha.
  - apply H2, H1, Ha.
  - apply H1, H2, Ha.
Qed.

Lemma count_size `{R : Rust} {F} (n : net F) : wf_net n -> count n (size n).
Proof. intros Hn. exists (all_addrs n). now apply all_addrs_spec. Qed.

Lemma c23_address_count : forall (R : Rust) (F : family) (n : net F),
  wf_net n ->
  count n (address_count n) /\
  address_count n = 2 ^ N.of_nat (zeros (N.to_nat (width F)) (value (subnet_mask n))).
Proof.
  intros R F n Hn. pose proof Hn as Hn'. apply wf_okN in Hn'.
  rewrite address_count_spec by assumption. split; [now apply count_size|].
  unfold zeros. fold (abits (subnet_mask n)). rewrite abits_bts by apply Hn. reflexivity.
Qed.

Lemma lowest_base `{R : Rust} {F} (n : net F) : wf_net n -> lowest n (base_addr n).
Proof.
  intros Hn. pose proof (wf_base _ Hn). split; [assumption|]. split.
  - intros i _ _. reflexivity.
  - intros b Hb Hm. rewrite member_wf in Hm by assumption. rewrite <- !value_v by assumption.
    apply base_min; [now apply wf_okN|assumption].
Qed.

Lemma lowest_unique `{R : Rust} {F} (n : net F) a b : lowest n a -> lowest n b -> a = b.
Proof.
  intros (Ha & Ma & Xa) (Hb & Mb & Xb). apply value_inj; try assumption.
  specialize (Xa b Hb Mb). specialize (Xb a Ha Ma). lia.
Qed.

Lemma NoDup_remove_in {X} (eqd : forall x y : X, {x = y} + {x <> y}) (a : X) l :
  NoDup l -> In a l -> List.length (remove eqd a l) = (List.length l - 1)%nat.
Proof.
  intros Hnd. induction Hnd as [|x l Hx Hnd IH]; [intros []|].
  intros [->|Hin]; cbn.
  - destruct (eqd a a) as [_|]; [|contradiction]. rewrite notin_remove by assumption. lia.
  - destruct (eqd a x) as [->|]; [contradiction|]. cbn. rewrite IH by assumption.
    destruct l; [destruct Hin|cbn; lia].
Qed.

Lemma NoDup_remove_nodup {X} (eqd : forall x y : X, {x = y} + {x <> y}) (a : X) l :
  NoDup l -> NoDup (remove eqd a l).
Proof.
  intros Hnd. induction Hnd as [|x l Hx Hnd IH]; cbn; [constructor|].
  destruct (eqd a x); [assumption|]. constructor; [|assumption].
  intros Hin. apply in_remove in Hin. tauto.
Qed.

Lemma addr_eq_dec {F} (a b : addr F) : {a = b} + {a <> b}.
Proof. destruct F; destruct a, b; cbn; decide equality; apply N.eq_dec. Qed.

Lemma c23_host_count : forall (R : Rust) (F : family) (n : net F),
  wf_net n -> host_count n = (Z.of_N (address_count n) - 2)%Z /\
  (2 <= address_count n ->
   exists l : list (addr F), NoDup l /\ Z.of_nat (List.length l) = host_count n /\
     forall a, In a l <-> valid a /\ member n a /\ ~ lowest n a /\ ~ highest n a).
Proof.
  intros R F n Hn. split; [reflexivity|]. intros Hk.
  destruct (c23_address_count R F n Hn) as [(l & Hnd & Hl & El) _].
  destruct (c25_last_addr R F n Hn) as (h & _ & Hh). pose proof (lowest_base n Hn) as Hb.
  exists (remove addr_eq_dec h (remove addr_eq_dec (base_addr n) l)).
  assert (Hbl : In (base_addr n) l) by (apply Hl; split; apply Hb).
  assert (Hhl : In h l) by (apply Hl; split; apply Hh).
  assert (Hne : h <> base_addr n).
  { intros ->. destruct l as [|x [|y l]]; cbn in El; try lia.
    assert (x = base_addr n /\ y = base_addr n) as [-> ->].
    { split; (eapply lowest_unique; [|exact Hb]).
      - assert (Hx : In x (x :: y :: l)) by now left. apply Hl in Hx. destruct Hx as [Hx Mx].
        split; [assumption|]. split; [assumption|]. intros b Vb Mb.
        destruct Hh as (_ & _ & Hmax). destruct Hb as (_ & _ & Hmin).
        pose proof (Hmax b Vb Mb). pose proof (Hmin b Vb Mb). pose proof (Hmax x Hx Mx). lia.
      - assert (Hx : In y (x :: y :: l)) by (right; now left). apply Hl in Hx. destruct Hx as [Hx Mx].
        split; [assumption|]. split; [assumption|]. intros b Vb Mb.
        destruct Hh as (_ & _ & Hmax). destruct Hb as (_ & _ & Hmin).
        pose proof (Hmax b Vb Mb). pose proof (Hmin b Vb Mb). pose proof (Hmax y Hx Mx). lia. }
    inversion Hnd; subst. cbn in *. tauto. }
  split; [now apply NoDup_remove_nodup, NoDup_remove_nodup|]. split.
  - rewrite NoDup_remove_in.
    + rewrite NoDup_remove_in by assumption. unfold host_count. lia.
    + now apply NoDup_remove_nodup.
    + now apply in_in_remove.
  - intros a. split.
    + intros Hin. apply in_remove in Hin. destruct Hin as [Hin H1]. apply in_remove in Hin.
      destruct Hin as [Hin H2]. apply Hl in Hin. destruct Hin as [Va Ma].
      repeat split; try assumption.
      * intros X. apply H2. now apply (lowest_unique n).
      * intros X. apply H1. now apply (highest_unique n).
    + intros (Va & Ma & H1 & H2). apply in_in_remove; [intros ->; contradiction|].
      apply in_in_remove; [intros ->; contradiction|]. apply Hl. auto.
Qed.

Lemma pow2_lt4 h : 2 ^ h < 4 <-> h < 2.
Proof. change 4 with (2 ^ 2). symmetry. apply N.pow_lt_mono_r_iff. lia. Qed.
Lemma pow2_lt2 h : 2 ^ h < 2 <-> h < 1.
Proof. change 2 with (2 ^ 1) at 2. symmetry. apply N.pow_lt_mono_r_iff. lia. Qed.

Lemma c24_first_host : forall (R : Rust) (F : family) (n : net F) (k : N),
  wf_net n -> count n k ->
  (k < 4 -> first_host_addr n = Ret None) /\
  (4 <= k -> exists a, first_host_addr n = Ret (Some a) /\ valid a /\ member n a /\
     lowest n (base_addr n) /\ value (base_addr n) < value a /\
     forall c, valid c -> member n c -> c = base_addr n \/ value a <= value c).
Proof.
  intros R F n k Hn Hc. pose proof Hn as Hn'. apply wf_okN in Hn'.
  rewrite (count_unique n k _ Hc (count_size n Hn)). unfold size.
  pose proof (first_host_spec n Hn') as S. pose proof (pow2_lt4 (N.of_nat (hf (subnet_mask n)))) as P.
  destruct (N.ltb_spec (N.of_nat (hf (subnet_mask n))) 2).
  - split; [intros; assumption|lia].
  - split; [lia|]. intros _. destruct S as (a & E & Ha & Hm & Hh). apply valid_ok in Ha.
    exists a. rewrite member_wf by assumption. repeat (split; [assumption|]).
    split; [now apply lowest_base|]. pose proof (wf_base _ Hn) as Hb.
    split.
    + rewrite <- !value_v by assumption. apply (host_lt (subnet_mask n)); [symmetry; exact Hm|].
      rewrite Hh, (okN_host n Hn'). lia.
    + intros c Hc' Mc. rewrite member_wf in Mc by assumption.
      destruct (N.eq_dec (hv (subnet_mask n) c) 0) as [E0|E0].
      * left. apply (nv_hv_inj (subnet_mask n)); try now apply valid_ok.
        -- exact Mc.
        -- rewrite E0. symmetry. apply Hn'.
      * right. rewrite <- !value_v by assumption. apply (host_le (subnet_mask n)).
        -- unfold mem in *. congruence.
        -- rewrite Hh. lia.
Qed.

Lemma c24_first_host_cidr : forall (R : Rust) (F : family) (n : net F) (p : N),
  is_cidr n p -> p + 2 <= width F ->
  exists a, first_host_addr n = Ret (Some a) /\ valid a /\ value a = value (base_addr n) + 1.
Proof.
  intros R F n p Hn Hp. destruct (is_cidr_cidr n p Hn) as [[Hn' _] Hc].
  destruct (contig_kt _ _ Hc) as [_ Hh]. rewrite width_W in Hp.
  pose proof (first_host_spec n Hn') as S.
  destruct (N.ltb_spec (N.of_nat (hf (subnet_mask n))) 2); [lia|].
  destruct S as (a & E & Ha & Hm & Hv). apply valid_ok in Ha. exists a.
  repeat (split; [assumption|]). pose proof (wf_base _ (proj1 Hn)).
  rewrite <- !value_v by assumption.
  rewrite (contig_v _ a _ Hc), (contig_v _ (base_addr n) _ Hc), Hv, (okN_host n Hn'), Hm. lia.
Qed.

Lemma c25_broadcast : forall (R : Rust) (F : family) (n : net F) (k : N),
  wf_net n -> count n k ->
  (k < 2 -> broadcast_addr n = Ret None) /\
  (2 <= k -> exists a, broadcast_addr n = Ret (Some a) /\ highest n a).
Proof.
  intros R F n k Hn Hc. pose proof Hn as Hn'. apply wf_okN in Hn'.
  rewrite (count_unique n k _ Hc (count_size n Hn)). unfold size.
  pose proof (broadcast_spec n Hn') as S. pose proof (pow2_lt2 (N.of_nat (hf (subnet_mask n)))) as P.
  destruct (N.ltb_spec (N.of_nat (hf (subnet_mask n))) 1).
  - split; [intros; assumption|lia].
  - split; [lia|]. intros _. destruct S as (a & E & Ha & _). exists a. split; [assumption|].
    destruct (c25_last_addr R F n Hn) as (l & El & Hl). unfold last_addr_of_subnet in El.
    rewrite E in El. cbn [bind] in El. injection El as ->. assumption.
Qed.

Lemma c26_last_host : forall (R : Rust) (F : family) (n : net F) (k : N),
  wf_net n -> count n k ->
  (k < 4 -> last_host_addr n = Ret None) /\
  (4 <= k -> exists a h, last_host_addr n = Ret (Some a) /\ valid a /\ member n a /\
     highest n h /\ value a < value h /\
     forall c, valid c -> member n c -> c = h \/ value c <= value a).
Proof.
  intros R F n k Hn Hc. pose proof Hn as Hn'. apply wf_okN in Hn'.
  rewrite (count_unique n k _ Hc (count_size n Hn)). unfold size.
  pose proof (last_host_spec n Hn') as S. pose proof (pow2_lt4 (N.of_nat (hf (subnet_mask n)))) as P.
  destruct (N.ltb_spec (N.of_nat (hf (subnet_mask n))) 2).
  - split; [intros; assumption|lia].
  - split; [lia|]. intros P4. destruct S as (a & E & Ha & Hm & Hh). apply valid_ok in Ha.
    destruct (last_addr_spec n Hn') as (l & El & Hl & Ml & Hhl).
    destruct (c25_last_addr R F n Hn) as (l' & El' & Hmax).
    assert (l' = l) by congruence. subst l'. apply valid_ok in Hl.
    exists a, l. rewrite member_wf by assumption. repeat (split; [assumption|]).
    split.
    + rewrite <- !value_v by assumption. apply (host_lt (subnet_mask n)).
      * unfold mem in *; congruence.
      * rewrite Hh, Hhl. lia.
    + intros c Hc' Mc. rewrite member_wf in Mc by assumption.
      pose proof (hv_lt (subnet_mask n) c).
      destruct (N.eq_dec (hv (subnet_mask n) c) (2 ^ N.of_nat (hf (subnet_mask n)) - 1)) as [E0|E0].
      * left. apply (nv_hv_inj (subnet_mask n)); try now apply valid_ok.
        -- unfold mem in *; congruence.
        -- congruence.
      * right. rewrite <- !value_v by assumption. apply (host_le (subnet_mask n)).
        -- unfold mem in *. congruence.
        -- rewrite Hh. lia.
Qed.

Lemma c26_hosts_together : forall (R : Rust) (F : family) (n : net F),
  wf_net n ->
  exists f l, first_host_addr n = Ret f /\ last_host_addr n = Ret l /\ (f = None <-> l = None).
Proof.
  intros R F n Hn. apply wf_okN in Hn.
  pose proof (first_host_spec n Hn) as S1. pose proof (last_host_spec n Hn) as S2.
  destruct (N.ltb_spec (N.of_nat (hf (subnet_mask n))) 2).
  - exists None, None. tauto.
  - destruct S1 as (a & E1 & _), S2 as (b & E2 & _). exists (Some a), (Some b).
    split; [assumption|]. split; [assumption|]. split; discriminate.
Qed.

Lemma c27_next_base : forall (R : Rust) (F : family) (n : net F),
  wf_net n ->
  (exists a, next_subnet_base_addr n = Ret (Some a) /\ valid a /\ no_host_bits (subnet_mask n) a /\
     value (base_addr n) < value a /\
     forall b, valid b -> no_host_bits (subnet_mask n) b -> value (base_addr n) < value b -> value a <= value b)
  \/
  (next_subnet_base_addr n = Ret None /\
     forall b, valid b -> no_host_bits (subnet_mask n) b -> value b <= value (base_addr n)).
Proof.
  intros R F n Hn. pose proof Hn as Hn'. apply wf_okN in Hn'.
  pose proof (wf_base _ Hn) as Hb. pose proof (wf_mask _ Hn) as Hm.
  pose proof (next_base_spec n Hn') as S. pose proof (okN_host n Hn') as H0.
  destruct (N.ltb_spec (nv (subnet_mask n) (base_addr n) + 1) (2 ^ N.of_nat (kt (subnet_mask n)))).
  - left. destruct S as (a & E & Ha & Enb & Eh). apply valid_ok in Ha. exists a.
    repeat (split; [assumption|]). split; [now apply hv0_no_host|].
    rewrite <- !value_v by assumption. split.
    + apply (net_lt (subnet_mask n)); [congruence|]. lia.
    + intros b Vb Nb. rewrite <- !value_v by assumption. rewrite <- hv0_no_host in Nb by assumption.
      rewrite (net_lt (subnet_mask n)) by congruence. rewrite (net_le (subnet_mask n)) by congruence. lia.
  - right. split; [assumption|]. intros b Vb Nb.
    rewrite <- !value_v by assumption. rewrite <- hv0_no_host in Nb by assumption.
    apply (net_le (subnet_mask n)); [congruence|]. pose proof (nv_lt (subnet_mask n) b). lia.
Qed.

Lemma c27_next_base_cidr : forall (R : Rust) (F : family) (n : net F) (p : N),
  is_cidr n p ->
  let top := value (base_addr n) + 2 ^ (width F - p) in
  (top < 2 ^ width F -> exists a, next_subnet_base_addr n = Ret (Some a) /\ valid a /\ value a = top) /\
  (2 ^ width F <= top -> next_subnet_base_addr n = Ret None).
Proof.
  intros R F n p Hn top. destruct (is_cidr_cidr n p Hn) as [[Hn' _] Hc].
  pose proof (next_base_spec n Hn') as S. destruct (size_cidr n p Hn) as [_ Hs].
  unfold top. rewrite <- Hs. unfold size. rewrite width_W.
  pose proof (wf_base _ (proj1 Hn)). rewrite <- value_v by assumption.
  rewrite (contig_v _ (base_addr n) _ Hc), (okN_host n Hn').
  pose proof (pow_W (subnet_mask n)) as HW. pose proof (pow2_pos (N.of_nat (hf (subnet_mask n)))).
  destruct (N.ltb_spec (nv (subnet_mask n) (base_addr n) + 1) (2 ^ N.of_nat (kt (subnet_mask n)))).
  - destruct S as (a & E & Ha & Enb & Eh). apply valid_ok in Ha. split.
    + intros _. exists a. repeat (split; [assumption|]). rewrite <- value_v by assumption.
      rewrite (contig_v _ a _ Hc), Enb, Eh. lia.
    + rewrite HW. nia.
  - split; [|intros _; assumption]. rewrite HW. nia.
Qed.

Lemma c28_nest_or_disjoint : forall (R : Rust) (F : family) (n n' : net F) (p p' : N),
  is_cidr n p -> is_cidr n' p' ->
  (intersects n n' = Ret true /\ share n n' /\ (is_superset_of n n' = true \/ is_superset_of n' n = true)) \/
  (intersects n n' = Ret false /\ ~ share n n' /\ is_superset_of n n' = false /\ is_superset_of n' n = false).
Proof.
  intros R F n n' p p' Hn Hn'.
  destruct (c22_intersects_cidr R F n n' p p' Hn Hn') as (r & E & Hr).
  destruct (is_cidr_cidr n p Hn) as [Hc _]. destruct (is_cidr_cidr n' p' Hn') as [Hc' _].
  pose proof (lowest_base n (proj1 Hn)) as L. pose proof (lowest_base n' (proj1 Hn')) as L'.
  assert (S1 : is_superset_of n n' = true -> share n n').
  { intros S. rewrite c20_superset in S by (apply Hn || apply Hn').
    exists (base_addr n'). split; [apply L'|]. split; [|apply L']. apply S; apply L'. }
  assert (S2 : is_superset_of n' n = true -> share n n').
  { intros S. rewrite c20_superset in S by (apply Hn || apply Hn').
    exists (base_addr n). split; [apply L|]. split; [apply L|]. apply S; apply L. }
  rewrite E. destruct r.
  - left. split; [reflexivity|]. assert (Sh : share n n') by now apply Hr. split; [assumption|].
    destruct (cidr_trichotomy n n' Hc Hc') as [T|[T|T]]; [now left|now right|].
    exfalso. rewrite share_mem in Sh by (apply Hn || apply Hn'). destruct Sh as (a & _ & Sh). now apply (T a).
  - right. split; [reflexivity|].
    assert (Sh : ~ share n n') by (intros X; apply Hr in X; discriminate). split; [assumption|].
    split; apply not_true_is_false; tauto.
Qed.
