(** * Pf_Resize: proofs for P_Resize *)
From Verif Require Import RustBase Addr BitManip Cidr Net Resize Spec Bits Weave Bytes Laws NetFacts SetFacts Family Loops Blocks EnumFacts ResizeFacts Demo.
From Coq Require Import ZifyBool ZifyNat ZifyN.
Ltac Zify.zify_post_hook ::= idtac.

Lemma bits_number_bval l : bits_number l = bval l.
Proof.
  unfold bits_number. assert (G : forall l acc, fold_left (fun acc (b : bool) => 2 * acc + (if b then 1 else 0)) l acc = acc * 2 ^ N.of_nat (List.length l) + bval l).
  { clear l. induction l as [|b l IH]; intros acc.
    - cbn. lia.
    - cbn [fold_left]. rewrite IH. change (b :: l) with ([b] ++ l). rewrite bval_app, app_length, Nat2N.inj_add, N.pow_add_r.
      cbn [List.length]. change (2 ^ N.of_nat 1) with 2. destruct b; change (bval [true]) with 1; change (bval [false]) with 0; lia. }
  rewrite G. lia.
Qed.

Lemma position_rk `{R : Rust} {F} (m a : addr F) : valid m -> valid a -> position m a = rk m a.
Proof.
  intros Hm Ha. unfold position. rewrite !abits_bts by assumption. rewrite bits_number_bval.
  fold (nb m a) (hb m a). rewrite bval_app, hb_length. reflexivity.
Qed.

Lemma host_bits_hf `{R : Rust} {F} (m : addr F) : valid m -> host_bits m = N.of_nat (hf m).
Proof.
  intros Hm. unfold host_bits, zeros. fold (abits m). rewrite abits_bts by assumption. reflexivity.
Qed.

Lemma cidr_of_mask `{R : Rust} {F} (n : net F) q :
  wf_net n -> contiguous F (value (subnet_mask n)) q -> is_cidr n q.
Proof. intros Hn Hc. split; [assumption|]. now apply (wf_prefix n Hn). Qed.

Lemma host_bits_cidr `{R : Rust} {F} (m : addr F) q :
  valid m -> contiguous F (value m) q -> host_bits m = width F - q.
Proof.
  intros Hm Hc. rewrite host_bits_hf by assumption. apply contig_contiguous in Hc; [|assumption].
  destruct (contig_kt _ _ Hc) as [_ ->]. rewrite width_W. lia.
Qed.

Lemma rk_cidr `{R : Rust} {F} (m a : addr F) q : valid m -> valid a -> contiguous F (value m) q -> rk m a = value a.
Proof.
  intros Hm Ha Hc. apply contig_contiguous in Hc; [|assumption]. unfold rk.
  now rewrite <- (contig_v m a _ Hc), value_v.
Qed.

Lemma c52_supernet : forall (R : Rust) (F : family) (n : net F) (m : addr F),
  wf_net n -> valid m -> host_bits (subnet_mask n) < host_bits m ->
  let pos := position (subnet_mask n) (base_addr n) in
  exists n', resize_network n m = Ret ([n'], Lt) /\ wf_net n' /\ subnet_mask n' = m /\
    position m (base_addr n') = pos - pos mod 2 ^ host_bits m.
Proof.
  intros R F n m Hn Hm Hlt pos. pose proof Hn as Hn'. pose proof Hm as Hm'.
  apply wf_okN in Hn'. apply valid_ok in Hm'. rewrite !host_bits_hf in * by (assumption || apply Hn).
  destruct (resize_super n m Hn' Hm') as (n' & E & Ho & Em & Er); [lia|].
  apply wf_okN in Ho. exists n'. repeat (split; [assumption|]).
  unfold pos. rewrite !position_rk by (assumption || apply Hn || apply Ho). exact Er.
Qed.

Lemma includes_interval `{R : Rust} {F} (n n' : net F) p p' :
  is_cidr n p -> is_cidr n' p' ->
  value (base_addr n) <= value (base_addr n') ->
  value (base_addr n') + 2 ^ (width F - p') <= value (base_addr n) + 2 ^ (width F - p) -> includes n n'.
Proof.
  intros Hn Hn' H1 H2 a Ha. rewrite !(member_interval _ _ _ Hn Ha), (member_interval _ _ _ Hn' Ha). lia.
Qed.

Lemma round_down_fits b D P : 0 < D -> 0 < P -> b mod P = 0 ->
  b + P <= b - b mod (D * P) + D * P.
Proof.
  intros HD HP Hb. assert (HQ : D * P <> 0) by (clear -HD HP; nia).
  pose proof (N.mod_lt b (D * P) HQ) as Hlt. pose proof (N.mod_le b (D * P) HQ) as Hle.
  assert (Hm0 : (b mod (D * P)) mod P = 0).
  { rewrite (N.mul_comm D P). rewrite N.mod_mul_r by (clear -HD HP; lia).
    rewrite Hb, N.add_0_l, N.mul_comm. apply N.mod_mul. clear -HP; lia. }
  apply N.mod_divide in Hm0; [|clear -HP; lia]. destruct Hm0 as [z Ez].
  rewrite Ez in *. clear -Hlt Hle HP.
  assert (Hz : z < D) by (apply (N.mul_lt_mono_pos_r P); assumption).
  pose proof (N.mul_le_mono_r (z + 1) D P ltac:(lia)) as H. rewrite N.mul_add_distr_r in H. lia.
Qed.

Lemma c52_supernet_cidr : forall (R : Rust) (F : family) (n : net F) (m : addr F) (p q : N),
  is_cidr n p -> valid m -> contiguous F (value m) q -> q < p ->
  exists n', resize_network n m = Ret ([n'], Lt) /\ is_cidr n' q /\ includes n' n.
Proof.
  intros R F n m p q Hn Hm Hc Hqp. pose proof (proj2 Hn) as Hp. rewrite (wf_prefix n (proj1 Hn)) in Hp.
  destruct (c52_supernet R F n m (proj1 Hn) Hm) as (n' & E & Hn' & Em & Er).
  { rewrite (host_bits_cidr _ q Hm Hc), (host_bits_cidr _ p (wf_mask _ (proj1 Hn)) Hp).
    destruct Hp as [Hp _]. lia. }
  exists n'. split; [assumption|]. assert (Hq : is_cidr n' q) by (apply cidr_of_mask; [assumption|now rewrite Em]).
  split; [assumption|]. rewrite !position_rk in Er by (assumption || apply Hn || apply Hn').
  rewrite (rk_cidr m _ q), (rk_cidr _ _ p) in Er by (assumption || apply Hn || apply Hn').
  rewrite (host_bits_cidr _ q Hm Hc) in Er.
  destruct (is_cidr_cidr n p Hn) as [Cn _]. pose proof (aligned n Cn) as Al.
  rewrite (proj2 (size_cidr n p Hn)), value_v in Al by apply Hn.
  apply (includes_interval n' n q p Hq Hn).
  - rewrite Er. apply N.le_sub_l.
  - rewrite Er. destruct Hp as [Hp _].
    assert (E1 : 2 ^ (width F - q) = 2 ^ (p - q) * 2 ^ (width F - p)) by (rewrite <- N.pow_add_r; f_equal; clear -Hp Hqp; lia).
    rewrite E1. apply round_down_fits; [apply pow2_pos|apply pow2_pos|exact Al].
Qed.

Lemma c52_superset_mixed_refuted : exists (n n' : net V4) (m : addr V4),
  wf_net n /\ valid m /\ host_bits (subnet_mask n) < host_bits m /\
  @resize_network debug_env (addr V4) ipv4_ops n m = Ret ([n'], Lt) /\ ~ includes n' n.
Proof.
  pose (n := @new_with_mask (addr V4) ipv4_ops (ip4 192 0 2 0) (ip4 255 255 255 0)).
  pose (n' := @new_with_mask (addr V4) ipv4_ops (ip4 192 0 0 0) (ip4 255 0 255 0)).
  exists n, n', (ip4 255 0 255 0).
  assert (Hn : wf_net n).
  { apply (wf_okN (R := debug_env)). apply okN_with_mask; now apply (valid_ok (R := debug_env)). }
  split; [exact Hn|]. split; [reflexivity|]. split; [reflexivity|]. split; [vm_compute; reflexivity|].
  intros Hi. specialize (Hi (ip4 192 0 2 0) eq_refl).
  assert (M : member n (ip4 192 0 2 0)) by (intros i _ _; reflexivity).
  specialize (Hi M 9 eq_refl eq_refl). discriminate.
Qed.

Section Sub.
  Context `{R : Rust} {F : family}.

  Lemma sublist_at (n : net F) m l e :
    sublist n m l -> In e l -> exists j, nth_error l j = Some e.
  Proof. intros _. apply In_nth_error. Qed.

  Lemma sublist_sorted (n : net F) m l :
    sublist n m l -> StronglySorted (fun e e' => okN e /\ okN e' /\ subnet_mask e = m /\ subnet_mask e' = m /\
       nv m (base_addr e) < nv m (base_addr e')) l.
  Proof.
    intros Hl. set (x := nv (subnet_mask n) (base_addr n) * 2 ^ (N.of_nat (hf (subnet_mask n)) - N.of_nat (hf m))).
    assert (G : forall l k, (forall j e, nth_error l j = Some e -> okN e /\ subnet_mask e = m /\ nv m (base_addr e) = x + N.of_nat (k + j)) ->
       StronglySorted (fun e e' : net F => okN e /\ okN e' /\ subnet_mask e = m /\ subnet_mask e' = m /\
       nv m (base_addr e) < nv m (base_addr e')) l).
    { clear l Hl. induction l as [|e l IH]; intros k Hl; [constructor|]. constructor.
      - apply (IH (S k)). intros j b Hj. replace (S k + j)%nat with (k + S j)%nat by lia. now apply Hl.
      - apply Forall_forall. intros b Hb. apply In_nth_error in Hb. destruct Hb as [j Hj].
        destruct (Hl 0%nat e eq_refl) as (He & Me & Ne). destruct (Hl (S j) b Hj) as (Hb & Mb & Nb).
        repeat (split; [assumption|]). lia. }
    now apply (G l 0%nat).
  Qed.

  Lemma sublist_union (n : net F) m l :
    okN n -> okA m -> sublist n m l -> (hf m < hf (subnet_mask n))%nat ->
    N.of_nat (List.length l) = 2 ^ (N.of_nat (hf (subnet_mask n)) - N.of_nat (hf m)) ->
    forall c, okA c -> ((exists e, In e l /\ mem e c) <->
       rk (subnet_mask n) (base_addr n) <= rk m c < rk (subnet_mask n) (base_addr n) + size n).
  Proof.
    intros Hn Hm Hl Hlt Hlen c Hc. rewrite rk_base by assumption. unfold size.
    set (D := 2 ^ (N.of_nat (hf (subnet_mask n)) - N.of_nat (hf m))) in *.
    assert (HD : 2 ^ N.of_nat (hf (subnet_mask n)) = D * 2 ^ N.of_nat (hf m)).
    { unfold D. rewrite <- N.pow_add_r. f_equal. lia. }
    rewrite HD. unfold rk. pose proof (hv_lt m c) as Hh.
    unfold sublist in Hl. fold D in Hl. set (P := 2 ^ N.of_nat (hf m)) in *. clearbody P. clearbody D.
    set (x := nv (subnet_mask n) (base_addr n)) in *.
    split.
    - intros (e & He & Me). apply In_nth_error in He. destruct He as [j Hj].
      assert (Hj' : (j < List.length l)%nat) by (apply nth_error_Some; congruence).
      destruct (Hl j e Hj) as (Oe & Ee & Ne). unfold mem in Me. rewrite Ee in Me. rewrite Me, Ne.
      clearbody x. assert (N.of_nat j + 1 <= D) by lia. split; [nia|].
      assert ((x * D + N.of_nat j + 1) * P <= (x * D + D) * P) by (apply N.mul_le_mono_r; lia). nia.
    - intros [H1 H2]. remember (nv m c) as y eqn:Ey. clearbody x.
      assert (Hy1 : x * D <= y).
      { apply N.le_ngt. intros C. assert ((y + 1) * P <= x * D * P) by (apply N.mul_le_mono_r; lia). nia. }
      assert (Hy2 : y < x * D + D).
      { apply N.lt_nge. intros C. assert ((x * D + D) * P <= y * P) by (apply N.mul_le_mono_r; lia). nia. }
      destruct (nth_error l (N.to_nat (y - x * D))) as [e|] eqn:E.
      + exists e. split; [now apply nth_error_In in E|]. destruct (Hl _ _ E) as (Oe & Ee & Ne).
        unfold mem. rewrite Ee, Ne, <- Ey. clear -Hy1 Hy2. lia.
      + apply nth_error_None in E. lia.
  Qed.
End Sub.

Lemma StronglySorted_impl {X} (P Q : X -> X -> Prop) l :
  (forall x y, In x l -> In y l -> P x y -> Q x y) -> StronglySorted P l -> StronglySorted Q l.
Proof.
  intros H S. induction S as [|x l S IH Hf]; constructor.
  - apply IH. intros; apply H; auto using in_cons.
  - rewrite Forall_forall in *. intros y Hy. apply H; auto using in_eq, in_cons.
Qed.

Lemma c53_subnets : forall (R : Rust) (F : family) (n : net F) (m : addr F),
  wf_net n -> valid m -> host_bits m < host_bits (subnet_mask n) ->
  let pos := position (subnet_mask n) (base_addr n) in
  exists l, resize_network n m = Ret (l, Gt) /\
    N.of_nat (List.length l) = 2 ^ (host_bits (subnet_mask n) - host_bits m) /\
    Forall (fun e => wf_net e /\ subnet_mask e = m) l /\
    (forall c : addr F, valid c ->
       ((exists e, In e l /\ member e c) <->
        pos <= position m c < pos + 2 ^ host_bits (subnet_mask n))) /\
    StronglySorted (fun e e' : net F => value (base_addr e) < value (base_addr e') /\ ~ share e e') l.
Proof.
  intros R F n m Hn Hm Hlt pos. pose proof Hn as Hn'. pose proof Hm as Hm'.
  apply wf_okN in Hn'. apply valid_ok in Hm'. rewrite !host_bits_hf in * by (assumption || apply Hn).
  assert (Hlt' : (hf m < hf (subnet_mask n))%nat) by lia.
  destruct (resize_sub n m Hn' Hm' Hlt') as (l & E & Hl & Hlen).
  exists l. split; [assumption|]. split; [assumption|]. split; [|split].
  - apply Forall_forall. intros e He. apply In_nth_error in He. destruct He as [j Hj].
    destruct (Hl j e Hj) as (Oe & Ee & _). split; [now apply wf_okN|assumption].
  - intros c Vc. pose proof Vc as Vc'. apply valid_ok in Vc'.
    unfold pos. rewrite !position_rk by (assumption || apply Hn). fold (size n).
    rewrite <- (sublist_union n m l Hn' Hm' Hl Hlt' Hlen c Vc').
    split; intros (e & He & Me); exists e; (split; [assumption|]);
      pose proof He as He'; apply In_nth_error in He'; destruct He' as [j Hj];
      destruct (Hl j e Hj) as (Oe & _ & _); apply wf_okN in Oe; now apply member_wf.
  - apply (StronglySorted_impl _ _ _ (fun x y _ _ H => H)).
    eapply StronglySorted_impl; [|exact (sublist_sorted n m l Hl)].
    intros e e' _ _ (Oe & Oe' & Ee & Ee' & Hnv). split.
    + apply wf_okN in Oe as We. apply wf_okN in Oe' as We'.
      rewrite <- !value_v by (apply We || apply We'). apply (net_lt m).
      * rewrite <- Ee at 1. rewrite <- Ee'. now rewrite (okN_host e Oe), (okN_host e' Oe').
      * assumption.
    + intros (a & Va & Ma & Ma'). apply wf_okN in Oe as We. apply wf_okN in Oe' as We'.
      rewrite member_wf in Ma, Ma' by assumption. unfold mem in Ma, Ma'. rewrite Ee in Ma. rewrite Ee' in Ma'. lia.
Qed.

Lemma c53_subnets_cidr : forall (R : Rust) (F : family) (n : net F) (m : addr F) (p q : N),
  is_cidr n p -> valid m -> contiguous F (value m) q -> p < q ->
  exists l, resize_network n m = Ret (l, Gt) /\
    N.of_nat (List.length l) = 2 ^ (q - p) /\
    Forall (fun e => is_cidr e q) l /\
    (forall c : addr F, valid c -> (member n c <-> exists e, In e l /\ member e c)) /\
    StronglySorted (fun e e' : net F => forall x y, valid x -> valid y ->
                      member e x -> member e' y -> value x < value y) l.
Proof.
  intros R F n m p q Hn Hm Hc Hpq. pose proof (proj2 Hn) as Hp. rewrite (wf_prefix n (proj1 Hn)) in Hp.
  pose proof (host_bits_cidr _ q Hm Hc) as Hb1. pose proof (host_bits_cidr _ p (wf_mask _ (proj1 Hn)) Hp) as Hb2.
  pose proof (proj1 Hc) as Hq'.
  destruct (c53_subnets R F n m (proj1 Hn) Hm) as (l & E & Hlen & Hl & Hu & Hs); [rewrite Hb1, Hb2; lia|].
  exists l. split; [assumption|]. split; [rewrite Hlen, Hb1, Hb2; f_equal; lia|].
  assert (Hl' : Forall (fun e => is_cidr e q) l).
  { rewrite Forall_forall in *. intros e He. destruct (Hl e He) as [We Ee]. apply cidr_of_mask; [assumption|now rewrite Ee]. }
  split; [assumption|]. split.
  - intros c Vc. rewrite (Hu c Vc), Hb2. rewrite !position_rk by (assumption || apply Hn).
    rewrite (rk_cidr m c q), (rk_cidr _ _ p) by (assumption || apply Hn). now apply member_interval.
  - rewrite Forall_forall in Hl'. eapply StronglySorted_impl; [|exact Hs].
    intros e e' He He' [Hlt Hns] x y Vx Vy Mx My.
    pose proof (Hl' e He) as Ce. pose proof (Hl' e' He') as Ce'.
    assert (Nx : ~ member e' x) by (intros C; apply Hns; exists x; auto).
    rewrite (member_interval _ _ _ Ce Vx) in Mx. rewrite (member_interval _ _ _ Ce' Vy) in My.
    rewrite (member_interval _ _ _ Ce' Vx) in Nx. lia.
Qed.

Lemma c54_same_size : forall (R : Rust) (F : family) (n : net F) (m : addr F),
  wf_net n -> valid m -> host_bits m = host_bits (subnet_mask n) ->
  exists n', resize_network n m = Ret ([n'], Eq) /\ wf_net n' /\ subnet_mask n' = m /\
    position m (base_addr n') = position (subnet_mask n) (base_addr n).
Proof.
  intros R F n m Hn Hm Heq. pose proof Hn as Hn'. pose proof Hm as Hm'.
  apply wf_okN in Hn'. apply valid_ok in Hm'. rewrite !host_bits_hf in * by (assumption || apply Hn).
  assert (Heq' : hf m = hf (subnet_mask n)) by lia.
  destruct (resize_same n m Hn' Hm' Heq') as (n' & E & Ho & Em & En).
  exists n'. split; [assumption|]. apply wf_okN in Ho as Hw. split; [assumption|]. split; [assumption|].
  rewrite !position_rk by (assumption || apply Hn || apply Hw). unfold rk. rewrite En, Heq'.
  rewrite (okN_host n Hn'). pose proof (okN_host n' Ho) as H0. rewrite Em in H0. now rewrite H0.
Qed.

Lemma same_net `{R : Rust} {F} (n n' : net F) :
  okN n -> okN n' -> subnet_mask n' = subnet_mask n ->
  nv (subnet_mask n) (base_addr n') = nv (subnet_mask n) (base_addr n) -> n' = n.
Proof.
  intros Hn Hn' Em En. apply okN_ext; try assumption.
  apply (nv_hv_inj (subnet_mask n)); try assumption; [apply Hn'|apply Hn|].
  rewrite (okN_host n Hn). rewrite <- Em. apply (okN_host n' Hn').
Qed.

Lemma c54_own_mask : forall (R : Rust) (F : family) (n : net F),
  wf_net n -> resize_network n (subnet_mask n) = Ret ([n], Eq).
Proof.
  intros R F n Hn. pose proof Hn as Hn'. apply wf_okN in Hn'.
  destruct (resize_same n (subnet_mask n) Hn' (okN_mask n Hn') eq_refl) as (n' & -> & Ho & Em & En).
  now rewrite (same_net n n').
Qed.

Lemma c54_there_and_back : forall (R : Rust) (F : family) (n n' : net F) (m : addr F),
  wf_net n -> valid m ->
  resize_network n m = Ret ([n'], Eq) -> resize_network n' (subnet_mask n) = Ret ([n], Eq).
Proof.
  intros R F n n' m Hn Hm E. pose proof Hn as Hn'. pose proof Hm as Hm'.
  apply wf_okN in Hn'. apply valid_ok in Hm'.
  assert (Heq : hf m = hf (subnet_mask n)).
  { destruct (Nat.lt_trichotomy (hf m) (hf (subnet_mask n))) as [H|[H|H]]; [|assumption|].
    - destruct (resize_sub n m Hn' Hm' H) as (l & E1 & _). rewrite E in E1. discriminate.
    - destruct (resize_super n m Hn' Hm' H) as (n1 & E1 & _). rewrite E in E1. discriminate. }
  destruct (resize_same n m Hn' Hm' Heq) as (n1 & E1 & Ho & Em & En).
  rewrite E in E1. injection E1 as <-.
  destruct (resize_same n' (subnet_mask n) Ho (okN_mask n Hn')) as (n2 & -> & Ho2 & Em2 & En2); [congruence|].
  rewrite (same_net n n2); try assumption; [reflexivity|]. rewrite En2, Em. exact En.
Qed.
