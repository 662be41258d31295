(** * ResizeFacts: resize_network *)
From Verif Require Import RustBase Addr BitManip Cidr Net Resize Spec Bits Weave Bytes Laws NetFacts SetFacts Loops Blocks.
From Coq Require Import ZifyBool ZifyNat ZifyN.

Section Facts.
  Context `{R : Rust} {A : Type} `{I : IpAddress A} `{L : !Laws A}.
  Implicit Types (a b m : A) (n : network A) (l : list (network A)).
  Notation mk n := (subnet_mask n).
  Notation bs n := (base_addr n).
  Notation WN := (N.of_nat W).
  Notation "'hN' m" := (N.of_nat (hf m)) (at level 9).
  Notation "'kN' m" := (N.of_nat (kt m)) (at level 9).

  (** Position of an address in the order given by the mask: network bits first. *)
  Definition rk m a : N := nv m a * 2 ^ hN m + hv m a.

  Lemma rk_lt m a : rk m a < 2 ^ WN.
  Proof.
    unfold rk. rewrite (pow_W m). pose proof (nv_lt m a). pose proof (hv_lt m a).
    pose proof (pow2_pos (hN m)).
    assert ((nv m a + 1) * 2 ^ hN m <= 2 ^ kN m * 2 ^ hN m) by (apply N.mul_le_mono_r; lia). lia.
  Qed.

  Lemma rk_base n : okN n -> rk (mk n) (bs n) = nv (mk n) (bs n) * size n.
  Proof. intros Hn. unfold rk, size. rewrite (okN_host n Hn). lia. Qed.

  Lemma mem_rk n a : okN n -> (mem n a <-> rk (mk n) (bs n) <= rk (mk n) a < rk (mk n) (bs n) + size n).
  Proof.
    intros Hn. rewrite rk_base by assumption. unfold rk, mem, size. pose proof (hv_lt (mk n) a) as Hlt.
    set (S := 2 ^ hN (mk n)) in *. clearbody S.
    split; [intros ->; lia|]. intros [H1 H2].
    set (x := nv (mk n) a) in *. set (y := nv (mk n) (bs n)) in *. clearbody x y.
    assert (x < y + 1) by nia. assert (y < x + 1) by nia. lia.
  Qed.

  Lemma weave_base_net u m x :
    okA u -> okA m -> v u = x * 2 ^ hN m ->
    exists w, weave_address u m = Ret w /\ okA w /\
      okN (new_with_mask w m) /\ mk (new_with_mask w m) = m /\ nv m (bs (new_with_mask w m)) = x.
  Proof.
    intros Hu Hm Vu. destruct (weave_value u m x 0 Hu) as (w & E & Hw & Nw & Hhw); [lia|apply pow2_pos|].
    exists w. repeat (split; [assumption|]). split; [now apply okN_with_mask|].
    split; [reflexivity|]. cbn [base_addr new_with_mask]. now rewrite nv_band.
  Qed.

  Lemma resize_super n m :
    okN n -> okA m -> (hf (mk n) < hf m)%nat ->
    exists n', resize_network n m = Ret ([n'], Lt) /\ okN n' /\ mk n' = m /\
      rk m (bs n') = rk (mk n) (bs n) - rk (mk n) (bs n) mod 2 ^ hN m.
  Proof.
    intros Hn Hm Hlt. unfold resize_network. rewrite !law_zeros by (assumption || apply Hn).
    rewrite law_ones by assumption. fold (hf m) (hf (mk n)) (kt m).
    rewrite (proj2 (N.ltb_lt _ _)) by lia.
    destruct (unravel_value (bs n) (mk n) (okN_base n Hn)) as (u & -> & Hu & _ & Vu). cbn [bind].
    fold (rk (mk n) (bs n)) in Vu. pose proof (kt_hf m) as K.
    destruct (with_prefix_cidr u (kN m) Hu) as (s & -> & Hs & _ & _ & _ & Eb); [lia|]. cbn [bind].
    replace (WN - kN m) with (hN m) in Eb by lia. rewrite Vu in Eb.
    pose proof (N.div_mod (rk (mk n) (bs n)) (2 ^ hN m) ltac:(apply N.pow_nonzero; lia)) as DM.
    assert (Q : rk (mk n) (bs n) - rk (mk n) (bs n) mod 2 ^ hN m = rk (mk n) (bs n) / 2 ^ hN m * 2 ^ hN m).
    { rewrite DM at 1. rewrite N.add_sub. apply N.mul_comm. }
    rewrite Q in *. clear DM.
    destruct (weave_base_net (bs s) m (rk (mk n) (bs n) / 2 ^ hN m)) as (w & -> & Hw & Ho & Em & Nw);
      [apply Hs|assumption|exact Eb|]. cbn [bind].
    eexists. split; [reflexivity|]. split; [assumption|]. split; [assumption|].
    assert (E := rk_base _ Ho). unfold size in E. rewrite Em, Nw in E. exact E.
  Qed.

  Lemma resize_same n m :
    okN n -> okA m -> hf m = hf (mk n) ->
    exists n', resize_network n m = Ret ([n'], Eq) /\ okN n' /\ mk n' = m /\
      nv m (bs n') = nv (mk n) (bs n).
  Proof.
    intros Hn Hm Heq. unfold resize_network. rewrite !law_zeros by (assumption || apply Hn).
    fold (hf m) (hf (mk n)). rewrite Heq, N.ltb_irrefl, N.eqb_refl.
    destruct (unravel_value (bs n) (mk n) (okN_base n Hn)) as (u & -> & Hu & _ & Vu). cbn [bind].
    rewrite (okN_host n Hn), N.add_0_r, <- Heq in Vu.
    destruct (weave_base_net u m _ Hu Hm Vu) as (w & -> & Hw & Ho & Em & Nw). cbn [bind]. eauto 6.
  Qed.

  (** The [j]th of the smaller networks. *)
  Definition sublist n m l : Prop :=
    forall j e, nth_error l j = Some e ->
      okN e /\ mk e = m /\ nv m (bs e) = nv (mk n) (bs n) * 2 ^ (hN (mk n) - hN m) + N.of_nat j.

  Lemma sublist_snoc n m l e :
    sublist n m l -> okN e -> mk e = m ->
    nv m (bs e) = nv (mk n) (bs n) * 2 ^ (hN (mk n) - hN m) + N.of_nat (List.length l) ->
    sublist n m (l ++ [e]).
  Proof.
    intros Hl He Em Hx j x Hj. destruct (Nat.lt_ge_cases j (List.length l)) as [Hlt|Hge].
    - rewrite nth_error_app1 in Hj by assumption. now apply Hl.
    - rewrite nth_error_app2 in Hj by assumption. destruct (j - List.length l)%nat as [|k] eqn:E; cbn in Hj.
      + injection Hj as <-. repeat (split; [assumption|]). rewrite Hx. do 2 f_equal. lia.
      + destruct k; discriminate.
  Qed.

  Lemma resize_sub n m :
    okN n -> okA m -> (hf m < hf (mk n))%nat ->
    exists l, resize_network n m = Ret (l, Gt) /\ sublist n m l /\
      N.of_nat (List.length l) = 2 ^ (hN (mk n) - hN m).
  Proof.
    intros Hn Hm Hlt. unfold resize_network. rewrite !law_zeros by (assumption || apply Hn).
    fold (hf m) (hf (mk n)). rewrite (proj2 (N.ltb_ge _ _)) by lia. rewrite (proj2 (N.eqb_neq _ _)) by lia.
    destruct (unravel_value (bs n) (mk n) (okN_base n Hn)) as (u & -> & Hu & _ & Vu). cbn [bind].
    destruct (last_addr_spec n Hn) as (la & -> & Hla & Mla & Hhla). cbn [bind].
    destruct (unravel_value la (mk n) Hla) as (ul & -> & Hul & _ & Vul). cbn [bind].
    rewrite (okN_host n Hn), N.add_0_r in Vu. rewrite Hhla in Vul. unfold mem in Mla. rewrite Mla in Vul.
    set (x := nv (mk n) (bs n)) in *. set (D := 2 ^ (hN (mk n) - hN m)). set (P := 2 ^ hN m).
    assert (HD : 2 ^ hN (mk n) = D * P).
    { unfold D, P. rewrite <- N.pow_add_r. f_equal. lia. }
    rewrite HD in *. assert (0 < P) by apply pow2_pos. assert (0 < D) by apply pow2_pos.
    assert (HK : 2 ^ kN m = 2 ^ kN (mk n) * D).
    { unfold D. rewrite <- N.pow_add_r. f_equal. pose proof (kt_hf m). pose proof (kt_hf (mk n)). lia. }
    assert (Hx : x < 2 ^ kN (mk n)) by apply nv_lt.
    assert (HxD : (x + 1) * D <= 2 ^ kN m) by (rewrite HK; apply N.mul_le_mono_r; lia).
    destruct (while_total (resize_step m ul)
      (fun st : A * list (network A) => let '(cur, nets) := st in
         okA cur /\ v cur = (x * D + N.of_nat (List.length nets)) * P /\
         N.of_nat (List.length nets) <= D /\ sublist n m nets)
      (fun st => D + 1 - N.of_nat (List.length (snd st)))
      (fun l => sublist n m l /\ N.of_nat (List.length l) = D) (u, [])) as (l & -> & Hl & Hlen).
    - intros [cur nets] (Hc & Vc & Hj & Hs). cbn [resize_step].
      set (j := N.of_nat (List.length nets)) in *.
      rewrite aleb_spec by assumption. destruct (N.leb_spec (v cur) (v ul)) as [Hle|Hgt].
      + assert (Hj' : j < D).
        { apply N.lt_nge. intros C. assert ((x * D + D) * P <= (x * D + j) * P) by (apply N.mul_le_mono_r; lia). nia. }
        destruct (weave_base_net cur m _ Hc Hm Vc) as (w & -> & Hw & Ho & Em & Nw). cbn [bind].
        set (nn := new_with_mask w m) in *.
        assert (Hs' : sublist n m (nets ++ [nn])) by (apply sublist_snoc; assumption).
        pose proof (next_base_spec nn Ho) as S. rewrite Em, Nw in S.
        destruct (N.ltb_spec (x * D + j + 1) (2 ^ kN m)) as [Hlt1|Hge1].
        * destruct S as (nx & -> & Hnx & Nnx & Hhnx). cbn [bind]. rewrite Em.
          destruct (unravel_value nx m Hnx) as (un & -> & Hun & _ & Vun). cbn [bind].
          fold P in Vun. rewrite Nnx, Hhnx in Vun.
          split; [|cbn [snd]; rewrite app_length; cbn [List.length]; lia].
          rewrite app_length. cbn [List.length]. fold j.
          replace (N.of_nat (List.length nets + 1)) with (j + 1) by lia.
          split; [assumption|]. split; [|split; [lia|assumption]]. rewrite Vun. lia.
        * rewrite S. cbn [bind]. split; [assumption|]. rewrite app_length. cbn [List.length]. lia.
      + split; [assumption|]. fold j. apply N.le_antisymm; [assumption|].
        apply N.le_ngt. intros C. assert ((x * D + j + 1) * P <= (x * D + D) * P) by (apply N.mul_le_mono_r; lia). nia.
    - cbn [List.length]. split; [assumption|]. split; [rewrite Vu; change (N.of_nat 0) with 0; lia|].
      split; [lia|]. intros j e Hj. destruct j; discriminate.
    - cbn [snd List.length]. assert (D <= 2 ^ 128).
      { unfold D. apply N.pow_le_mono_r; [lia|]. pose proof (kt_hf (mk n)). pose proof law_nby. unfold W in *. lia. }
      assert (2 ^ 128 + 1 < 2 ^ 300) by (vm_compute; reflexivity). lia.
    - cbn [bind]. eauto.
  Qed.
End Facts.
