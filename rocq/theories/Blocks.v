(** * Blocks: CIDR networks as aligned blocks; maximal blocks of an address set
    form its shortest description *)
From Verif Require Import RustBase Addr BitManip Cidr Net Spec Bits Weave Bytes Laws NetFacts SetFacts.
From Coq Require Import ZifyBool ZifyNat ZifyN.
Ltac Zify.zify_post_hook ::= Z.div_mod_to_equations.

Lemma mod_pow_le x i j : i <= j -> x mod 2 ^ j = 0 -> x mod 2 ^ i = 0.
Proof.
  intros Hij Hx. replace j with ((j - i) + i) in Hx by lia. rewrite N.pow_add_r in Hx.
  apply N.mod_divide in Hx.
  - destruct Hx as [y ->]. rewrite N.mul_assoc. apply N.mod_mul. apply N.pow_nonzero. lia.
  - apply N.neq_mul_0. split; apply N.pow_nonzero; lia.
Qed.

(** Pigeonhole by a relation that is injective on [l]. *)
Lemma pigeon {X Y} (rel : X -> Y -> Prop) (l : list X) :
  forall l' : list Y,
  NoDup l -> (forall x, In x l -> exists y, In y l' /\ rel x y) ->
  (forall x1 x2 y, In x1 l -> In x2 l -> rel x1 y -> rel x2 y -> x1 = x2) ->
  (List.length l <= List.length l')%nat.
Proof.
  induction l as [|x l IH]; intros l' Hnd Hex Hinj; [cbn; lia|].
  destruct (Hex x (or_introl eq_refl)) as (y & Hy & Hr).
  apply in_split in Hy. destruct Hy as (l1 & l2 & ->).
  inversion Hnd; subst.
  assert ((List.length l <= List.length (l1 ++ l2))%nat).
  { apply IH; [assumption| |].
    - intros x' Hx'. destruct (Hex x' (or_intror Hx')) as (y' & Hy' & Hr').
      exists y'. split; [|assumption]. apply in_app_or in Hy'. apply in_or_app.
      destruct Hy' as [Hy'|[Hy'|Hy']]; auto. subst y'. exfalso.
      assert (x' = x) by (eapply Hinj; eauto; [now right|now left]). now subst.
    - intros x1 x2 z H1' H2'. apply Hinj; now right. }
  rewrite app_length in *. cbn. lia.
Qed.

Section Facts.
  Context `{R : Rust} {A : Type} `{I : IpAddress A} `{L : !Laws A}.
  Implicit Types (a b m : A) (n : network A) (l : list (network A)).
  Notation mk n := (subnet_mask n).
  Notation bs n := (base_addr n).
  Notation WN := (N.of_nat W).

  Lemma hf_le m : N.of_nat (hf m) <= WN.
  Proof. pose proof (kt_hf m). lia. Qed.

  Lemma size_log n : exists j, j <= WN /\ size n = 2 ^ j.
  Proof. exists (N.of_nat (hf (mk n))). split; [apply hf_le|reflexivity]. Qed.

  Lemma cidr_prefix_size n p : cidr n -> (cidr_prefix n = Some p <-> p <= WN /\ size n = 2 ^ (WN - p)).
  Proof.
    intros [Hn [q Hq]]. rewrite (okN_prefix n Hn). rewrite contig_of_prefix.
    pose proof (contig_kt _ _ Hq) as [_ Hh]. pose proof Hq as Hq'. apply contig_repeat in Hq'.
    rewrite bts_length in Hq'. destruct Hq' as [Hq' _]. unfold size. rewrite Hh. split.
    - intros Hp. rewrite (contig_unique _ _ _ Hq Hp) in *. split; [lia|]. f_equal. lia.
    - intros [Hp E]. apply N.pow_inj_r in E; [|lia]. replace (N.to_nat p) with q by lia. assumption.
  Qed.

  Lemma cidr_some n : cidr n -> exists p, cidr_prefix n = Some p /\ p <= WN /\ size n = 2 ^ (WN - p).
  Proof.
    intros Hn. exists (WN - N.of_nat (hf (mk n))).
    assert (X : WN - N.of_nat (hf (mk n)) <= WN /\ size n = 2 ^ (WN - (WN - N.of_nat (hf (mk n))))).
    { pose proof (hf_le (mk n)). split; [lia|]. unfold size. f_equal. lia. }
    split; [|assumption]. now apply cidr_prefix_size.
  Qed.

  Lemma with_prefix_cidr a p :
    okA a -> p <= WN ->
    exists n, new_with_prefix a p = Ret n /\ cidr n /\ mem n a /\ cidr_prefix n = Some p /\
      size n = 2 ^ (WN - p) /\ v (bs n) = v a - v a mod 2 ^ (WN - p).
  Proof.
    intros Ha Hp. destruct (with_prefix_mask a p Ha Hp) as (m & Hm & Eb & E).
    exists (new_with_mask a m). split; [assumption|].
    assert (Hc : contig (bts m) (N.to_nat p)).
    { apply contig_repeat. rewrite bts_length. split; [lia|assumption]. }
    assert (Hn : cidr (new_with_mask a m)).
    { split; [now apply okN_with_mask|]. now exists (N.to_nat p). }
    split; [assumption|]. split; [now apply with_mask_mem|].
    assert (Es : size (new_with_mask a m) = 2 ^ (WN - p)).
    { unfold size. cbn [subnet_mask new_with_mask]. destruct (contig_kt _ _ Hc) as [_ ->]. f_equal. lia. }
    split; [now apply cidr_prefix_size|]. split; [assumption|].
    cbn [base_addr new_with_mask]. unfold size in Es. cbn [subnet_mask new_with_mask] in Es.
    rewrite <- Es. rewrite (contig_v m a _ Hc), (contig_v m (band a m) _ Hc).
    rewrite nv_band, hv_band by assumption. rewrite N.add_0_r.
    pose proof (hv_lt m a). rewrite N.add_comm at 2.
    rewrite N.mod_add by (apply N.pow_nonzero; lia). rewrite N.mod_small by assumption. lia.
  Qed.

  Lemma cidr_ext n n' : cidr n -> cidr n' -> v (bs n) = v (bs n') -> size n = size n' -> n = n'.
  Proof.
    intros Hn Hn' Eb Es.
    assert (S : forall n n', cidr n -> cidr n' -> v (bs n) = v (bs n') -> size n = size n' -> is_superset_of n n' = true).
    { clear. intros n n' Hn Hn' Eb Es. apply superset_interval; try assumption. lia. }
    apply superset_antisym; try apply Hn; try apply Hn'; apply S; auto.
  Qed.

  Lemma block_at x j : x mod 2 ^ j = 0 -> j <= WN -> x < 2 ^ WN ->
    exists n, cidr n /\ v (bs n) = x /\ size n = 2 ^ j.
  Proof.
    intros Hx Hj Hlt. destruct (of_value x Hlt) as (a & Ha & <-).
    destruct (with_prefix_cidr a (WN - j) Ha) as (n & _ & Hn & _ & _ & Es & Eb); [lia|].
    replace (WN - (WN - j)) with j in * by (clear -Hj; lia). exists n. repeat split; try apply Hn; [|assumption].
    rewrite Eb, Hx. lia.
  Qed.

  (** Membership and inclusion with intervals *)
  Definition lo n := v (bs n).
  Definition hi n := v (bs n) + size n.

  (** ** Address sets *)
  Definition inside n (P : A -> Prop) : Prop := forall a, okA a -> mem n a -> P a.
  Definition covers l (P : A -> Prop) : Prop :=
    forall a, okA a -> (P a <-> exists n, In n l /\ mem n a).
  Definition maximal (P : A -> Prop) n : Prop :=
    cidr n /\ inside n P /\
    forall n', cidr n' -> inside n' P -> is_superset_of n' n = true -> n' = n.

  Lemma superset_inside n n' : cidr n -> cidr n' -> (is_superset_of n n' = true <-> inside n' (mem n)).
  Proof. intros Hn Hn'. apply superset_spec; [apply Hn|apply Hn']. Qed.

  Lemma maximal_disjoint P n n' a :
    maximal P n -> maximal P n' -> mem n a -> mem n' a -> n = n'.
  Proof.
    intros (Hn & Hi & Hm) (Hn' & Hi' & Hm') Ha Ha'.
    destruct (cidr_trichotomy n n' Hn Hn') as [S|[S|S]].
    - now apply Hm'.
    - symmetry. now apply Hm.
    - exfalso. now apply (S a).
  Qed.

  (** If moreover the other list is as short, it has the same members. *)
  Lemma pigeon_onto {X Y} (rel : X -> Y -> Prop) (l : list X) (l' : list Y) :
    NoDup l -> (forall x, In x l -> exists y, In y l' /\ rel x y) ->
    (forall x1 x2 y, In x1 l -> In x2 l -> rel x1 y -> rel x2 y -> x1 = x2) ->
    (List.length l' <= List.length l)%nat ->
    forall y, In y l' -> exists x, In x l /\ rel x y.
  Proof.
    revert l'. induction l as [|x l IH]; intros l' Hnd Hex Hinj Hlen y Hy.
    - destruct l'; [contradiction|cbn in Hlen; lia].
    - destruct (Hex x (or_introl eq_refl)) as (z & Hz & Hr).
      apply in_split in Hz. destruct Hz as (l1 & l2 & ->). inversion Hnd; subst.
      apply in_app_or in Hy. destruct Hy as [Hy|[->|Hy]]; [|exists x; split; [now left|assumption]|].
      1,2: destruct (IH (l1 ++ l2)) with (y := y) as (x' & Hx' & Hr'); try assumption;
        [| |rewrite app_length in *; cbn in Hlen; lia|apply in_or_app; auto|exists x'; split; [now right|assumption]].
      1,3: intros x' Hx'; destruct (Hex x' (or_intror Hx')) as (y' & Hy' & Hr');
        exists y'; split; [|assumption]; apply in_app_or in Hy'; apply in_or_app;
        destruct Hy' as [Hy'|[Hy'|Hy']]; auto; subst y'; exfalso;
        assert (x' = x) by (eapply Hinj; eauto; [now right|now left]); now subst.
      all: intros x1 x2 u H1' H2'; apply Hinj; now right.
  Qed.

  Lemma net_dec n n' : {n = n'} + {n <> n'}.
  Proof.
    assert (D : forall a b : A, {a = b} + {a <> b}).
    { intros a b. destruct (aeqb a b) eqn:E; [left; now apply law_eqb|].
      right. intros C. apply law_eqb in C. congruence. }
    decide equality. decide equality. apply N.eq_dec.
  Defined.

  Lemma covers_NoDup_aux P l l' :
    Forall (maximal P) l -> Forall cidr l' -> covers l' P ->
    (forall n, In n l -> exists n', In n' l' /\ is_superset_of n n' = true) /\
    (forall n1 n2 n', In n1 l -> In n2 l -> In n' l' ->
       is_superset_of n1 n' = true -> is_superset_of n2 n' = true -> n1 = n2).
  Proof.
    intros Hl Hl' Hc. rewrite Forall_forall in Hl, Hl'. split.
    - intros n Hn. destruct (Hl n Hn) as (Hn' & Hi & Hm).
      assert (Hb : okA (bs n)) by apply Hn'.
      destruct (proj1 (Hc (bs n) Hb)) as (n' & Hin & Hmem); [apply Hi; [assumption|apply mem_base]|].
      exists n'. split; [assumption|]. pose proof (Hl' n' Hin) as Hcn'.
      destruct (cidr_trichotomy n n' Hn' Hcn') as [S|[S|S]].
      + assumption.
      + assert (n' = n). { apply Hm; try assumption. intros a Ha Hma. apply Hc; eauto. }
        subst n'. apply superset_refl. apply Hn'.
      + exfalso. apply (S (bs n)). split; [apply mem_base|assumption].
    - intros n1 n2 n' H1 H2 Hin S1 S2. apply Hl in H1, H2. pose proof (Hl' n' Hin) as Hcn'.
      apply superset_inside in S1; [|apply H1|assumption]. apply superset_inside in S2; [|apply H2|assumption].
      assert (Hb : okA (bs n')) by apply Hcn'.
      apply (maximal_disjoint P n1 n2 (bs n')); try assumption.
      + apply S1; [assumption|apply mem_base].
      + apply S2; [assumption|apply mem_base].
  Qed.

  Lemma maximal_shortest P l l' :
    NoDup l -> Forall (maximal P) l -> Forall cidr l' -> covers l' P ->
    (List.length l <= List.length l')%nat.
  Proof.
    intros Hnd Hl Hl' Hc. destruct (covers_NoDup_aux P l l' Hl Hl' Hc) as [H1 H2].
    apply (pigeon (fun n n' => In n' l' /\ is_superset_of n n' = true)); [assumption| |].
    - intros n Hn. destruct (H1 n Hn) as (n' & Hn' & S). eauto.
    - intros n1 n2 n' Hn1 Hn2 [Hin S1] [_ S2]. eauto.
  Qed.

  (** The maximal blocks are the only shortest description. *)
  Lemma maximal_shortest_unique P l l' :
    NoDup l -> Forall (maximal P) l -> Forall cidr l' -> covers l' P ->
    (List.length l' <= List.length l)%nat -> Permutation l l'.
  Proof.
    intros Hnd Hl Hl' Hc Hlen. destruct (covers_NoDup_aux P l l' Hl Hl' Hc) as [H1 H2].
    assert (Onto : forall n', In n' l' -> exists n, In n l /\ (In n' l' /\ is_superset_of n n' = true)).
    { apply pigeon_onto; try assumption.
      - intros n Hn. destruct (H1 n Hn) as (n' & Hn' & S). eauto.
      - intros n1 n2 n' Hn1 Hn2 [Hin S1] [_ S2]. eauto. }
    rewrite Forall_forall in Hl, Hl'.
    (* each n is covered by its own n' only, hence equal to it *)
    assert (Uniq : forall n n1 n2, In n l -> In n1 l' -> In n2 l' ->
              is_superset_of n n1 = true -> is_superset_of n n2 = true -> n1 = n2).
    { intros n n1 n2 Hn Hn1 Hn2 S1 S2.
      destruct (net_dec n1 n2) as [|Hne]; [assumption|]. exfalso.
      apply in_split in Hn1. destruct Hn1 as (k1 & k2 & ->).
      assert (Hn2' : In n2 (k1 ++ k2)).
      { apply in_app_or in Hn2. apply in_or_app. destruct Hn2 as [|[|]]; auto. congruence. }
      assert ((List.length l <= List.length (k1 ++ k2))%nat).
      { apply (pigeon (fun n n' => In n' (k1 ++ n1 :: k2) /\ is_superset_of n n' = true)); [assumption| |].
        - intros e He. destruct (H1 e He) as (n' & Hn' & S). pose proof Hn' as Hn0.
          apply in_app_or in Hn'. destruct Hn' as [Hn'|[Hn'|Hn']].
          + exists n'. split; [apply in_or_app; auto|auto].
          + subst n'. assert (e = n) by eauto. subst e. exists n2. split; [assumption|].
            split; [apply in_app_or in Hn2'; apply in_or_app; cbn; tauto|assumption].
          + exists n'. split; [apply in_or_app; auto|auto].
        - intros e1 e2 n' He1 He2 [Hin T1] [_ T2]. eauto. }
      rewrite app_length in *. cbn in Hlen. lia. }
    assert (Incl : forall n, In n l -> In n l').
    { intros n Hn. destruct (H1 n Hn) as (n' & Hn' & S). destruct (Hl n Hn) as (Cn & In' & _).
      assert (n' = n); [|now subst]. symmetry. apply superset_antisym; [apply Cn|apply (Hl' n' Hn')|assumption|].
      apply superset_spec; [apply (Hl' n' Hn')|apply Cn|]. intros a Ha Hm.
      destruct (proj1 (Hc a Ha) (In' a Ha Hm)) as (n2 & Hn2 & Hm2).
      destruct (Onto n2 Hn2) as (e & He & _ & Se).
      assert (e = n).
      { apply (maximal_disjoint P e n a); auto.
        apply superset_inside in Se; [|apply (Hl e He)|now apply Hl']. now apply Se. }
      subst e. now rewrite (Uniq n n' n2). }
    apply NoDup_Permutation_bis; try assumption.
  Qed.

  (** ** Block lists without sibling pairs *)
  Definition siblings n n' : Prop :=
    size n = size n' /\ v (bs n') = v (bs n) + size n /\ v (bs n) mod (2 * size n) = 0.

  Lemma cover_in_one l :
    Forall cidr l -> (forall n n', In n l -> In n' l -> ~ siblings n n') ->
    forall n, cidr n -> inside n (fun a => exists e, In e l /\ mem e a) ->
    exists e, In e l /\ is_superset_of e n = true.
  Proof.
    intros Hl Hsib. rewrite Forall_forall in Hl.
    assert (H : forall j n, cidr n -> size n = 2 ^ N.of_nat j ->
      inside n (fun a => exists e, In e l /\ mem e a) ->
      exists e, In e l /\ is_superset_of e n = true).
    2:{ intros n Hn. apply (H (hf (mk n))); [assumption|reflexivity]. }
    induction j as [|j IH]; intros n Hn Es Hi.
    - destruct (Hi (bs n)) as (e & He & Hm); [apply Hn|apply mem_base|].
      exists e. split; [assumption|]. pose proof (Hl e He) as Hce.
      rewrite mem_interval in Hm by assumption. apply superset_interval; try assumption.
      change (2 ^ N.of_nat 0) with 1 in Es. lia.
    - rewrite Nat2N.inj_succ, N.pow_succ_r' in Es.
      pose proof (aligned n Hn) as Al. pose proof (interval_top n Hn) as Top.
      set (P := 2 ^ N.of_nat j) in *. assert (0 < P) by apply pow2_pos.
      assert (HjW : N.of_nat j <= WN).
      { destruct (size_log n) as (i & Hi' & Ei). assert (E : 2 ^ (1 + N.of_nat j) = 2 ^ i).
        { rewrite N.pow_add_r. change (2 ^ 1) with 2. fold P. congruence. }
        apply N.pow_inj_r in E; lia. }
      rewrite Es in Al. apply N.mod_divide in Al; [|lia]. destruct Al as [q Eq].
      destruct (block_at (v (bs n)) (N.of_nat j)) as (n1 & Hn1 & Eb1 & Es1).
      { fold P. rewrite Eq, N.mul_assoc. apply N.mod_mul. lia. }
      { assumption. } { lia. }
      destruct (block_at (v (bs n) + P) (N.of_nat j)) as (n2 & Hn2 & Eb2 & Es2).
      { fold P. rewrite Eq. replace (q * (2 * P) + P) with ((2 * q + 1) * P) by lia. apply N.mod_mul. lia. }
      { assumption. } { lia. }
      fold P in Es1, Es2.
      destruct (IH n1 Hn1 Es1) as (e1 & He1 & S1).
      { intros a Ha Hm. apply Hi; [assumption|]. rewrite mem_interval in * by assumption. lia. }
      destruct (IH n2 Hn2 Es2) as (e2 & He2 & S2).
      { intros a Ha Hm. apply Hi; [assumption|]. rewrite mem_interval in * by assumption. lia. }
      pose proof (Hl e1 He1) as Hc1. pose proof (Hl e2 He2) as Hc2.
      rewrite superset_interval in S1, S2 by assumption. rewrite Eb1, Es1 in S1. rewrite Eb2, Es2 in S2.
      assert (Grow : forall e, cidr e -> size e <> P ->
        v (bs e) <= v (bs n) /\ v (bs n) + P <= v (bs e) + size e \/
        v (bs e) <= v (bs n) + P /\ v (bs n) + P + P <= v (bs e) + size e ->
        is_superset_of e n = true).
      { clear S1 S2. intros e Hce Hne Hse. apply superset_interval; try assumption. rewrite Es.
        destruct (size_log e) as (i & Hi' & Ei). rewrite Ei in *.
        assert (Hji : N.of_nat j < i).
        { apply N.lt_nge. intros C. assert (2 ^ i <= P) by (apply N.pow_le_mono_r; lia). nia. }
        assert (Hij : 2 * P <= 2 ^ i).
        { unfold P. rewrite <- N.pow_succ_r'. apply N.pow_le_mono_r; lia. }
        replace (2 * P) with (2 ^ (N.of_nat j + 1)) by (rewrite N.pow_add_r; fold P; change (2 ^ 1) with 2; lia).
        apply pow_intervals.
        - rewrite N.pow_add_r. fold P. change (2 ^ 1) with 2. rewrite Eq.
          replace (q * (2 * P)) with (q * (P * 2)) by lia. apply N.mod_mul. lia.
        - rewrite <- Ei. now apply aligned.
        - lia.
        - lia.
        - rewrite N.pow_add_r. fold P. change (2 ^ 1) with 2. lia. }
      destruct (N.eq_dec (size e1) P) as [E1|E1].
      2:{ exists e1. split; [assumption|]. apply Grow; auto. }
      destruct (N.eq_dec (size e2) P) as [E2|E2].
      2:{ exists e2. split; [assumption|]. apply Grow; auto. }
      exfalso. apply (Hsib e1 e2 He1 He2). unfold siblings. rewrite E1, E2.
      split; [reflexivity|]. split; [lia|]. replace (v (bs e1)) with (v (bs n)) by lia.
      rewrite Eq. apply N.mod_mul. lia.
  Qed.

  Lemma no_siblings_maximal l :
    Forall cidr l -> (forall n n', In n l -> In n' l -> ~ siblings n n') ->
    (forall n n', In n l -> In n' l -> is_superset_of n n' = true -> n = n') ->
    Forall (maximal (fun a => exists e, In e l /\ mem e a)) l.
  Proof.
    intros Hl Hsib Hanti. apply Forall_forall. intros n Hn. pose proof Hl as Hl'.
    rewrite Forall_forall in Hl'. pose proof (Hl' n Hn) as Hcn. split; [assumption|]. split.
    - intros a Ha Hm. eauto.
    - intros n' Hn' Hi S. destruct (cover_in_one l Hl Hsib n' Hn' Hi) as (e & He & Se).
      pose proof (Hl' e He) as Hce.
      assert (e = n).
      { apply Hanti; try assumption. now apply superset_trans with n'; try apply Hce; try apply Hcn; try apply Hn'. }
      subst e. apply superset_antisym; try assumption; [apply Hn'|apply Hcn].
  Qed.
End Facts.
