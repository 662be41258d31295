(** * MinimizeFacts: what minimize_subnets computes *)
From Verif Require Import RustBase Addr BitManip Cidr Net Minimize Spec Bits Weave Bytes Laws NetFacts SetFacts Loops Blocks Order.
From Coq Require Import ZifyBool ZifyNat ZifyN.
Ltac Zify.zify_post_hook ::= idtac.

(** A list of bits with at most one 1 is 0 or a power of two. *)
Lemma one_bit l : (ctrue l <= 1)%nat -> bval l = 0 \/ exists k, bval l = 2 ^ k.
Proof.
  induction l as [|b l IH]; [now left|]. rewrite ctrue_cons. cbn [bval]. intros H. destruct b.
  - assert (E : bval l = 0).
    { assert (H0 : ctrue l = 0%nat) by lia. clear -H0. induction l as [|b l IH]; [reflexivity|].
      rewrite ctrue_cons in H0. destruct b; [lia|]. cbn [bval]. rewrite IH by lia. reflexivity. }
    rewrite E. right. exists (N.of_nat (List.length l)). cbn [N.b2n]. lia.
  - cbn [N.b2n]. rewrite N.mul_0_l, N.add_0_l. apply IH. lia.
Qed.

Lemma one_bit_inv l k : bval l = 2 ^ k -> (ctrue l <= 1)%nat.
Proof.
  intros E. pose proof (popcount_bval l) as P. rewrite E in P.
  assert (Q : forall j : nat, popcount (2 ^ N.of_nat j) = 1).
  { induction j as [|j IH]; [reflexivity|]. now rewrite Nat2N.inj_succ, N.pow_succ_r', popcount_double. }
  specialize (Q (N.to_nat k)). rewrite N2Nat.id in Q. lia.
Qed.

(** At most [B] distinct numbers below [B]. *)
Lemma NoDup_bound (l : list N) (B : N) : NoDup l -> (forall x, In x l -> x < B) -> N.of_nat (List.length l) <= B.
Proof.
  intros Hnd Hlt.
  assert ((List.length l <= List.length (map N.of_nat (seq 0 (N.to_nat B))))%nat).
  { apply NoDup_incl_length; [assumption|]. intros x Hx. apply in_map_iff. exists (N.to_nat x).
    split; [apply N2Nat.id|]. apply in_seq. specialize (Hlt x Hx). lia. }
  rewrite map_length, seq_length in H. lia.
Qed.

Section Facts.
  Context `{R : Rust} {A : Type} `{I : IpAddress A} `{L : !Laws A} `{O : !Ordered A}.
  Implicit Types (a b m : A) (n : network A) (l f s : list (network A)).
  Notation mk n := (subnet_mask n).
  Notation bs n := (base_addr n).
  Notation WN := (N.of_nat W).

  (** ** Sets *)
  Lemma net_eqb_eq n n' : net_eqb n n' = true <-> n = n'.
  Proof.
    unfold net_eqb. rewrite !andb_true_iff, !law_eqb. split.
    - intros [[E1 E2] E3]. destruct n as [b0 m0 p0], n' as [b1 m1 p1]. cbn in *. subst. f_equal.
      destruct p0, p1; cbn in E3; try discriminate; [|reflexivity]. apply N.eqb_eq in E3. congruence.
    - intros ->. repeat split. destruct (cidr_prefix n'); [apply N.eqb_refl|reflexivity].
  Qed.
  Lemma net_eqb_neq n n' : net_eqb n n' = false <-> n <> n'.
  Proof. rewrite <- not_true_iff_false, net_eqb_eq. reflexivity. Qed.

  Lemma set_mem_In n s : set_mem n s = true <-> In n s.
  Proof.
    unfold set_mem. rewrite existsb_exists. split.
    - intros (x & Hx & E). apply net_eqb_eq in E. now subst.
    - intros Hn. exists n. split; [assumption|now apply net_eqb_eq].
  Qed.
  Lemma In_insert x n s : In x (set_insert n s) <-> x = n \/ In x s.
  Proof.
    unfold set_insert. destruct (set_mem n s) eqn:E.
    - apply set_mem_In in E. split; [auto|]. intros [->|]; assumption.
    - rewrite in_app_iff. cbn. intuition.
  Qed.
  Lemma NoDup_insert n s : NoDup s -> NoDup (set_insert n s).
  Proof.
    intros Hs. unfold set_insert. destruct (set_mem n s) eqn:E; [assumption|].
    assert (Hn : ~ In n s) by (rewrite <- set_mem_In; congruence).
    apply (Permutation_NoDup (l := n :: s)); [apply Permutation_cons_append|now constructor].
  Qed.
  Lemma insert_length n s : (List.length (set_insert n s) <= S (List.length s))%nat.
  Proof. unfold set_insert. destruct (set_mem n s); [lia|]. rewrite app_length. cbn. lia. Qed.
  Lemma In_remove x n s : In x (set_remove n s) <-> In x s /\ x <> n.
  Proof.
    unfold set_remove. rewrite filter_In, negb_true_iff, net_eqb_neq. intuition.
  Qed.
  Lemma NoDup_remove n s : NoDup s -> NoDup (set_remove n s).
  Proof. apply NoDup_filter. Qed.
  Lemma remove_length n s : NoDup s -> In n s -> S (List.length (set_remove n s)) = List.length s.
  Proof.
    intros Hs Hn. assert (P : Permutation s (n :: set_remove n s)).
    { apply NoDup_Permutation; [assumption| |].
      - constructor; [rewrite In_remove; tauto|now apply NoDup_remove].
      - intros x. cbn. rewrite In_remove. destruct (net_dec x n) as [->|]; intuition congruence. }
    apply Permutation_length in P. cbn in P. lia.
  Qed.
  Lemma In_collect x l : forall s, In x (fold_left (fun s n => set_insert n s) l s) <-> In x l \/ In x s.
  Proof.
    induction l as [|n l IH]; intros s; cbn [fold_left]; [cbn; tauto|].
    rewrite IH, In_insert. cbn. intuition.
  Qed.
  Lemma NoDup_collect l : forall s, NoDup s -> NoDup (fold_left (fun s n => set_insert n s) l s).
  Proof.
    induction l as [|n l IH]; intros s Hs; cbn [fold_left]; [assumption|]. apply IH. now apply NoDup_insert.
  Qed.
  Lemma collect_length l : forall s,
    (List.length (fold_left (fun s n => set_insert n s) l s) <= List.length l + List.length s)%nat.
  Proof.
    induction l as [|n l IH]; intros s; cbn [fold_left List.length]; [lia|].
    specialize (IH (set_insert n s)). pose proof (insert_length n s). lia.
  Qed.

  (** ** Keys *)
  Definition key n : N := v (bs n) * 2 ^ WN + v (mk n).

  Lemma key_inj n n' : okN n -> okN n' -> key n = key n' -> n = n'.
  Proof.
    intros Hn Hn' E. unfold key in E. pose proof (v_lt (mk n)) as H1. pose proof (v_lt (mk n')) as H2.
    rewrite (N.mul_comm (v (bs n))), (N.mul_comm (v (bs n'))) in E.
    apply N.div_mod_unique in E; try assumption. destruct E as [Eb Em].
    apply okN_ext; try assumption; apply v_inj; try assumption; try apply Hn; apply Hn'.
  Qed.

  Lemma key_cmp_lt n n' : okN n -> okN n' ->
    (key_cmp n n' = Lt <-> v (bs n) < v (bs n') \/ v (bs n) = v (bs n') /\ v (mk n) < v (mk n')).
  Proof.
    intros Hn Hn'. rewrite key_lt. rewrite !law_cmp by (apply Hn || apply Hn'). rewrite !N.compare_lt_iff.
    split; (intros [H|[E H]]; [auto|right; split; [|assumption]]).
    - now rewrite E.
    - apply v_inj; [apply Hn|apply Hn'|assumption].
  Qed.

  Lemma key_cmp_key n n' : okN n -> okN n' -> (key_cmp n n' = Lt <-> key n < key n').
  Proof.
    intros Hn Hn'. rewrite key_cmp_lt by assumption. unfold key.
    pose proof (v_lt (mk n)) as H1. pose proof (v_lt (mk n')) as H2.
    set (P := 2 ^ WN) in *. set (x := v (bs n)). set (y := v (bs n')). clearbody P x y. split.
    - intros [H|[-> H]]; [|lia]. pose proof (N.mul_le_mono_r (x + 1) y P ltac:(lia)) as H3.
      rewrite N.mul_add_distr_r in H3. lia.
    - intros H. destruct (N.lt_trichotomy x y) as [|[->|C]]; [auto|right; split; [reflexivity|lia]|].
      pose proof (N.mul_le_mono_r (y + 1) x P ltac:(lia)) as H3. rewrite N.mul_add_distr_r in H3. lia.
  Qed.

  Lemma key_bound n : key n < 2 ^ 256.
  Proof.
    unfold key. pose proof (v_lt (mk n)) as H1. pose proof (v_lt (bs n)) as H2.
    assert (HW : 2 ^ WN <= 2 ^ 128).
    { apply N.pow_le_mono_r; [lia|]. unfold W. pose proof law_nby. lia. }
    change (2 ^ 256) with (2 ^ 128 * 2 ^ 128). set (P := 2 ^ WN) in *. set (Q := 2 ^ 128) in *.
    assert (P * P <= Q * Q) by (apply N.mul_le_mono; assumption).
    assert ((v (bs n) + 1) * P <= P * P) by (apply N.mul_le_mono_r; lia).
    rewrite N.mul_add_distr_r in H0. lia.
  Qed.

  Lemma set_small s : NoDup s -> Forall okN s -> N.of_nat (List.length s) < 2 ^ 300.
  Proof.
    intros Hnd Hok. assert (H : N.of_nat (List.length (map key s)) <= 2 ^ 256).
    { apply NoDup_bound.
      - rewrite Forall_forall in Hok. clear -Hnd Hok L. induction Hnd as [|n s Hn Hnd IH]; [constructor|].
        cbn. constructor.
        + intros C. apply in_map_iff in C. destruct C as (n' & E & Hn'). apply Hn.
          apply key_inj in E; [now subst|apply Hok; now right|apply Hok; now left].
        + apply IH. intros x Hx. apply Hok. now right.
      - intros x Hx. apply in_map_iff in Hx. destruct Hx as (n & <- & _). apply key_bound. }
    rewrite map_length in H. eapply N.le_lt_trans; [exact H|]. reflexivity.
  Qed.

  (** ** Strict supersets sort first *)
  Definition strict n n' : Prop := is_superset_of n n' = true /\ n <> n'.
  Definition strictb n n' : bool := is_superset_of n n' && negb (net_eqb n n').
  Lemma strictb_spec n n' : strictb n n' = true <-> strict n n'.
  Proof. unfold strictb, strict. rewrite andb_true_iff, negb_true_iff, net_eqb_neq. reflexivity. Qed.

  Lemma land_le_l x y : N.land x y <= x.
  Proof. apply N.ldiff_le. apply N.bits_inj. intros i. rewrite N.ldiff_spec, N.land_spec, N.bits_0. now destruct (N.testbit x i), (N.testbit y i). Qed.

  Lemma strict_key n n' : okN n -> okN n' -> strict n n' -> key_cmp n n' = Lt.
  Proof.
    intros Hn Hn' [S Hne]. apply key_cmp_lt; try assumption.
    pose proof S as S'. rewrite superset_spec in S' by assumption.
    specialize (S' (bs n') (okN_base n' Hn') (mem_base n')).
    apply base_min in S'; [|assumption].
    destruct (N.eq_dec (v (bs n)) (v (bs n'))) as [E|]; [|left; lia].
    right. split; [assumption|]. apply v_inj in E; [|apply Hn|apply Hn'].
    unfold is_superset_of in S. rewrite andb_true_iff, !law_eqb in S. destruct S as [_ S].
    apply (f_equal v) in S. rewrite v_and in S by (apply Hn || apply Hn').
    assert (v (mk n) <= v (mk n')).
    { rewrite <- S. apply land_le_l. }
    destruct (N.eq_dec (v (mk n)) (v (mk n'))) as [Em|]; [|lia]. exfalso. apply Hne.
    apply v_inj in Em; [|apply Hn|apply Hn']. now apply okN_ext.
  Qed.

  (** ** Elimination *)
  Lemma elim_inner ni x l : forall f,
    In x (fold_left (fun f nj => if is_superset_of ni nj && negb (net_eqb ni nj) then set_remove nj f else f) l f) <->
    In x f /\ ~ (In x l /\ strict ni x).
  Proof.
    induction l as [|nj l IH]; intros f; cbn [fold_left]; [cbn; tauto|].
    rewrite IH. fold (strictb ni nj). destruct (strictb ni nj) eqn:E.
    - apply strictb_spec in E. rewrite In_remove. cbn. split.
      + intros ((Hx & Hne) & H). split; [assumption|]. intros [[->|Hx'] S]; [contradiction|tauto].
      + intros (Hx & H). split; [|tauto]. split; [assumption|]. intros ->. tauto.
    - assert (E' : ~ strict ni nj) by (rewrite <- strictb_spec; congruence). cbn. split.
      + intros (Hx & H). split; [assumption|]. intros [[->|Hx'] S]; tauto.
      + intros (Hx & H). split; [assumption|]. tauto.
  Qed.
  Lemma elim_inner_NoDup ni l : forall f, NoDup f ->
    NoDup (fold_left (fun f nj => if is_superset_of ni nj && negb (net_eqb ni nj) then set_remove nj f else f) l f).
  Proof.
    induction l as [|nj l IH]; intros f Hf; cbn [fold_left]; [assumption|]. apply IH.
    destruct (_ && _); [now apply NoDup_remove|assumption].
  Qed.
  Lemma elim_inner_length ni l : forall f,
    (List.length (fold_left (fun f nj => if is_superset_of ni nj && negb (net_eqb ni nj) then set_remove nj f else f) l f)
     <= List.length f)%nat.
  Proof.
    induction l as [|nj l IH]; intros f; cbn [fold_left]; [lia|].
    etransitivity; [apply IH|]. destruct (_ && _); [|lia]. unfold set_remove.
    clear. induction f as [|y f IH]; cbn; [lia|]. destruct (negb _); cbn; lia.
  Qed.

  Lemma eliminate_In x l : forall f,
    In x (eliminate l f) <->
    In x f /\ ~ exists l1 ni l2, l = l1 ++ ni :: l2 /\ In x l2 /\ strict ni x.
  Proof.
    induction l as [|n l IH]; intros f; cbn [eliminate].
    - split; [|tauto]. intros Hx. split; [assumption|]. intros (l1 & ni & l2 & E & _). now destruct l1.
    - rewrite IH, elim_inner. split.
      + intros ((Hx & H1) & H2). split; [assumption|]. intros (l1 & ni & l2 & E & Hin & S).
        destruct l1 as [|y l1]; injection E as -> ->; [tauto|]. apply H2. eauto 6.
      + intros (Hx & H). split; [split; [assumption|]|].
        * intros [Hin S]. apply H. exists [], n, l. auto.
        * intros (l1 & ni & l2 & -> & Hin & S). apply H. exists (n :: l1), ni, l2. auto.
  Qed.
  Lemma eliminate_NoDup l : forall f, NoDup f -> NoDup (eliminate l f).
  Proof.
    induction l as [|n l IH]; intros f Hf; cbn [eliminate]; [assumption|]. apply IH. now apply elim_inner_NoDup.
  Qed.
  Lemma eliminate_length l : forall f, (List.length (eliminate l f) <= List.length f)%nat.
  Proof.
    induction l as [|n l IH]; intros f; cbn [eliminate]; [lia|]. etransitivity; [apply IH|apply elim_inner_length].
  Qed.

  Lemma sorted_split s1 n s2 x :
    StronglySorted (fun n n' => key_cmp n n' <> Gt) (s1 ++ n :: s2) -> In x s1 -> key_cmp x n <> Gt.
  Proof.
    induction s1 as [|y s1 IH]; [contradiction|]. cbn. intros S [->|Hx].
    - inversion S as [|? ? ? Hf]; subst. rewrite Forall_forall in Hf. apply Hf. apply in_or_app. right. now left.
    - inversion S; subst. auto.
  Qed.

  (** What is left are the networks no other one strictly includes. *)
  Definition first_filter l := let s := sort_nets l in eliminate s (fold_left (fun s n => set_insert n s) s []).

  Lemma first_filter_In l : Forall okN l ->
    forall x, In x (first_filter l) <-> In x l /\ forall n, In n l -> ~ strict n x.
  Proof.
    intros Hl x. rewrite Forall_forall in Hl. unfold first_filter.
    pose proof (sort_nets_perm l) as P. pose proof (sort_nets_sorted l) as S.
    set (s := sort_nets l) in *. cbv zeta.
    assert (Hin : forall y, In y s <-> In y l).
    { intros y. split; apply Permutation_in; [assumption|now apply Permutation_sym]. }
    rewrite eliminate_In, In_collect. rewrite Hin. cbn [In]. split.
    - intros ([Hx|[]] & H). split; [assumption|]. intros n Hn St. apply H.
      pose proof Hn as Hn'. rewrite <- Hin in Hn'. apply in_split in Hn'. destruct Hn' as (s1 & s2 & E).
      exists s1, n, s2. split; [assumption|]. split; [|assumption].
      pose proof Hx as Hx'. rewrite <- Hin, E in Hx'. apply in_app_or in Hx'. cbn in Hx'.
      destruct Hx' as [Hx'|[Hx'|Hx']]; [exfalso|exfalso|assumption].
      + rewrite E in S. apply (sorted_split s1 n s2 x S) in Hx'. apply Hx'.
        rewrite key_sym, (strict_key n x) by auto. reflexivity.
      + subst x. now apply (proj2 St).
    - intros (Hx & H). split; [auto|]. intros (s1 & n & s2 & E & _ & St). apply (H n); [|assumption].
      rewrite <- Hin, E. apply in_or_app. right. now left.
  Qed.

  (** Every network is inside one that is left. *)
  Lemma first_filter_dom l : Forall okN l ->
    forall x, In x l -> exists n, In n (first_filter l) /\ is_superset_of n x = true.
  Proof.
    intros Hl x. pose proof Hl as Hl'. rewrite Forall_forall in Hl'.
    remember (key x) as k eqn:Ek. revert x Ek.
    induction k as [k IH] using (well_founded_induction N.lt_wf_0). intros x -> Hx.
    destruct (existsb (fun n => strictb n x) l) eqn:E.
    - apply existsb_exists in E. destruct E as (n & Hn & S). apply strictb_spec in S.
      destruct (IH (key n)) with (x := n) as (n' & Hn' & S'); auto.
      + apply key_cmp_key; auto. apply strict_key; auto.
      + exists n'. split; [assumption|]. apply first_filter_In in Hn'; [|assumption].
        apply superset_trans with n; auto; [now apply Hl'|apply S].
    - exists x. split; [|apply superset_refl; auto]. apply first_filter_In; [assumption|]. split; [assumption|].
      intros n Hn S. apply strictb_spec in S. rewrite <- not_true_iff_false, existsb_exists in E. eauto.
  Qed.

  (** ** Merging *)
  Definition merged ni nj : network A :=
    new_with_mask (bs ni) (band (mk ni) (bitwise_negate (bxor (bs ni) (bs nj)))).
  Definition partner ni nj : Prop :=
    mk ni = mk nj /\ nv (mk ni) (bs nj) = nv (mk ni) (bs ni) + 1 /\
    (ctrue (bts (bxor (bs ni) (bs nj))) <= 1)%nat.

  Lemma host_zero n m : okN n -> mk n = m -> hv m (bs n) = 0.
  Proof. intros Hn <-. apply Hn. Qed.

  Lemma partner_lt ni nj : okN ni -> okN nj -> partner ni nj -> v (bs ni) < v (bs nj).
  Proof.
    intros Hi Hj (Em & En & _). apply (net_lt (mk ni)); [|lia].
    now rewrite (host_zero ni), (host_zero nj).
  Qed.

  Lemma partner_key ni nj : okN ni -> okN nj -> partner ni nj -> key_cmp ni nj = Lt.
  Proof. intros Hi Hj P. apply key_cmp_lt; auto. left. now apply partner_lt. Qed.

  (** Partners differ in exactly one bit, which is under the mask. *)
  Lemma partner_bit ni nj : okN ni -> okN nj -> partner ni nj ->
    exists k, k < WN /\ N.lxor (v (bs ni)) (v (bs nj)) = 2 ^ k /\ N.testbit (v (mk ni)) k = true.
  Proof.
    intros Hi Hj P. pose proof (partner_lt ni nj Hi Hj P) as Hlt. destruct P as (Em & En & Hc).
    apply one_bit in Hc. fold (v (bxor (bs ni) (bs nj))) in Hc.
    rewrite v_xor in Hc by (apply Hi || apply Hj).
    destruct Hc as [Hc|[k Hk]]; [apply N.lxor_eq in Hc; lia|].
    assert (HkW : k < WN).
    { pose proof (lxor_lt WN (v (bs ni)) (v (bs nj)) (v_lt _) (v_lt _)) as H. rewrite Hk in H.
      now apply N.pow_lt_mono_r_iff in H. }
    exists k. split; [assumption|]. split; [assumption|].
    destruct (N.testbit (v (mk ni)) k) eqn:E; [reflexivity|]. exfalso.
    pose proof (host_zero ni (mk ni) Hi eq_refl) as Z1. pose proof (host_zero nj (mk ni) Hj (eq_sym Em)) as Z2.
    rewrite hv0_testbit in Z1, Z2. specialize (Z1 k HkW E). specialize (Z2 k HkW E).
    apply (f_equal (fun x => N.testbit x k)) in Hk. rewrite N.lxor_spec, Z1, Z2, N.pow2_bits_true in Hk. discriminate.
  Qed.

  Lemma testbit_neg a i : okA a -> i < WN -> N.testbit (v (bitwise_negate a)) i = negb (N.testbit (v a) i).
  Proof.
    intros Ha Hi. rewrite !testbit_v by assumption. destruct (law_neg a Ha) as [_ ->].
    rewrite (nth_indep _ false (negb false)) by (rewrite map_length, bts_length; lia). apply map_nth.
  Qed.

  Lemma merged_ok ni nj : okN ni -> okN nj -> okN (merged ni nj).
  Proof.
    intros Hi Hj. apply okN_with_mask; [apply Hi|]. apply law_and; [apply Hi|]. apply law_neg.
    apply law_xor; [apply Hi|apply Hj].
  Qed.

  Lemma merged_mem ni nj a : okN ni -> okN nj -> partner ni nj -> okA a ->
    (mem (merged ni nj) a <-> mem ni a \/ mem nj a).
  Proof.
    intros Hi Hj P Ha. destruct (partner_bit ni nj Hi Hj P) as (k & HkW & Hk & Hm).
    destruct P as (Em & _ & _).
    pose proof (okN_base ni Hi) as Hbi. pose proof (okN_base nj Hj) as Hbj. pose proof (okN_mask ni Hi) as Hmi.
    destruct (law_xor _ _ Hbi Hbj) as [Hx _]. destruct (law_neg _ Hx) as [Hxn _].
    destruct (law_and _ _ Hmi Hxn) as [Hnm _].
    assert (Hxb : forall i, i < WN -> N.testbit (v (bs nj)) i = xorb (N.testbit (v (bs ni)) i) (i =? k)).
    { intros i Hi'. apply (f_equal (fun x => N.testbit x i)) in Hk. rewrite N.lxor_spec, N.pow2_bits_eqb in Hk.
      rewrite N.eqb_sym, <- Hk. now destruct (N.testbit (v (bs ni)) i), (N.testbit (v (bs nj)) i). }
    assert (HM : forall i, i < WN -> N.testbit (v (mk (merged ni nj))) i = N.testbit (v (mk ni)) i && negb (i =? k)).
    { intros i Hi'. unfold merged. cbn [subnet_mask new_with_mask]. rewrite v_and by assumption.
      rewrite N.land_spec, testbit_neg by assumption. rewrite v_xor by assumption. rewrite Hk, N.pow2_bits_eqb.
      now rewrite N.eqb_sym. }
    assert (HB : mem (merged ni nj) a <->
      forall i, i < WN -> N.testbit (v (mk ni)) i = true -> i <> k -> N.testbit (v a) i = N.testbit (v (bs ni)) i).
    { pose proof (with_mask_mem (bs ni) _ Hbi Hnm) as Hw. fold (merged ni nj) in Hw. unfold mem in Hw |- *.
      rewrite <- Hw. rewrite nv_inj, nb_testbit. split.
      - intros H i Hi' Hb Hne. apply H; [assumption|]. rewrite HM, Hb by assumption.
        apply N.eqb_neq in Hne. now rewrite Hne.
      - intros H i Hi' Hb. rewrite HM in Hb by assumption. apply andb_true_iff in Hb. destruct Hb as [Hb Hne].
        apply negb_true_iff, N.eqb_neq in Hne. now apply H. }
    rewrite HB, !mem_testbit, <- Em. split.
    - intros H. destruct (bool_dec (N.testbit (v a) k) (N.testbit (v (bs ni)) k)) as [E|E].
      + left. intros i Hi' Hb. destruct (N.eq_dec i k) as [->|]; auto.
      + right. intros i Hi' Hb. rewrite Hxb by assumption. destruct (N.eqb_spec i k) as [->|Hne].
        * rewrite xorb_true_r. now destruct (N.testbit (v a) k), (N.testbit (v (bs ni)) k).
        * rewrite xorb_false_r. auto.
    - intros [H|H] i Hi' Hb Hne; [auto|]. rewrite H by assumption. rewrite Hxb by assumption.
      apply N.eqb_neq in Hne. rewrite Hne. apply xorb_false_r.
  Qed.

  Lemma merged_superset ni nj : okN ni -> okN nj -> partner ni nj ->
    is_superset_of (merged ni nj) ni = true /\ is_superset_of (merged ni nj) nj = true.
  Proof.
    intros Hi Hj P. pose proof (merged_ok ni nj Hi Hj) as Hm.
    split; (apply superset_spec; [assumption|assumption|]); intros a Ha H; apply merged_mem; auto.
  Qed.

  Lemma merge_j_spec ni l :
    okN ni -> Forall okN l -> Forall (fun nj => key_cmp ni nj = Lt) l ->
    (exists nj, In nj l /\ partner ni nj /\ merge_j ni l = Ret (Some (nj, merged ni nj))) \/
    (forall nj, In nj l -> ~ partner ni nj) /\ merge_j ni l = Ret None.
  Proof.
    intros Hi. induction l as [|nj l IH]; intros Hok Hlt.
    - right. split; [intros ? []|reflexivity].
    - inversion Hok as [|? ? Hj Hok']; subst. inversion Hlt as [|? ? Hkey Hlt']; subst.
      specialize (IH Hok' Hlt').
      assert (Skip : ~ partner ni nj -> merge_j ni (nj :: l) = merge_j ni l ->
        (exists nk, In nk (nj :: l) /\ partner ni nk /\ merge_j ni (nj :: l) = Ret (Some (nk, merged ni nk))) \/
        (forall nk, In nk (nj :: l) -> ~ partner ni nk) /\ merge_j ni (nj :: l) = Ret None).
      { intros Hnp E. destruct IH as [(nk & Hin & P & E')|[Hn E']].
        - left. exists nk. split; [now right|]. split; [assumption|congruence].
        - right. split; [|congruence]. intros nk [<-|Hin]; auto. }
      pose proof (next_base_spec ni Hi) as NB.
      cbn [merge_j] in Skip |- *.
      destruct (aeqb (mk ni) (mk nj)) eqn:Em; cbn [negb] in Skip |- *.
      2:{ apply Skip; [|reflexivity]. intros (E & _). apply law_eqb in E. congruence. }
      apply law_eqb in Em.
      pose proof (host_zero ni (mk ni) Hi eq_refl) as Zi. pose proof (host_zero nj (mk ni) Hj (eq_sym Em)) as Zj.
      assert (Hnv : nv (mk ni) (bs ni) < nv (mk ni) (bs nj)).
      { apply (net_lt (mk ni)); [congruence|]. apply key_cmp_lt in Hkey; try assumption.
        destruct Hkey as [|[_ C]]; [assumption|]. rewrite Em in C. lia. }
      pose proof (nv_lt (mk ni) (bs nj)) as Hb.
      destruct (N.ltb_spec (nv (mk ni) (bs ni) + 1) (2 ^ N.of_nat (kt (mk ni)))) as [_|C]; [|lia].
      destruct NB as (b & Eb & Hb0 & Hnb & Hzb). rewrite Eb in Skip |- *. cbn [bind] in Skip |- *.
      destruct (aeqb b (bs nj)) eqn:E2; cbn [negb] in Skip |- *.
      2:{ apply Skip; [|reflexivity]. intros (_ & E & _).
          assert (C : b = bs nj); [|apply law_eqb in C; congruence].
          apply (nv_hv_inj (mk ni)); [assumption|apply Hj|congruence|congruence]. }
      apply law_eqb in E2.
      destruct (law_xor _ _ (okN_base ni Hi) (okN_base nj Hj)) as [Hx _].
      rewrite law_ones in Skip |- * by assumption.
      destruct (N.ltb_spec 1 (N.of_nat (ctrue (bts (bxor (bs ni) (bs nj)))))) as [C|C].
      + apply Skip; [|reflexivity]. intros (_ & _ & E). lia.
      + left. exists nj. split; [now left|]. assert (P : partner ni nj).
        { split; [assumption|]. split; [congruence|lia]. }
        split; [assumption|]. fold (merged ni nj).
        destruct (merged_superset ni nj Hi Hj P) as [-> ->]. reflexivity.
  Qed.

  Lemma merge_i_spec s :
    Forall okN s -> StronglySorted (fun n n' => key_cmp n n' = Lt) s ->
    (exists ni nj, In ni s /\ In nj s /\ partner ni nj /\ merge_i s = Ret (Some (ni, nj, merged ni nj))) \/
    (forall ni nj, In ni s -> In nj s -> ~ partner ni nj) /\ merge_i s = Ret None.
  Proof.
    induction s as [|n s IH]; intros Hok S.
    - right. split; [intros ? ? []|reflexivity].
    - inversion Hok as [|? ? Hn Hok']; subst. inversion S as [|? ? S' Hf]; subst.
      cbn [merge_i]. destruct (merge_j_spec n s Hn Hok' Hf) as [(nj & Hin & P & E)|[Hno E]].
      + left. exists n, nj. rewrite E. cbn [bind]. split; [now left|]. split; [now right|]. auto.
      + rewrite E. cbn [bind]. destruct (IH Hok' S') as [(ni & nj & Hi & Hj & P & E')|[Hno' E']].
        * left. exists ni, nj. split; [now right|]. split; [now right|]. auto.
        * right. split; [|assumption]. rewrite Forall_forall in Hok', Hf.
          assert (Irr : forall x, okN x -> ~ partner x x) by (intros x Hx P; apply partner_lt in P; auto; lia).
          intros ni nj [<-|Hi] [<-|Hj]; auto.
          intros P. apply partner_key in P; auto. specialize (Hf ni Hi).
          rewrite key_sym, Hf in P. discriminate.
  Qed.

  Lemma sorted_strict s : Forall okN s -> NoDup s ->
    StronglySorted (fun n n' => key_cmp n n' <> Gt) s -> StronglySorted (fun n n' => key_cmp n n' = Lt) s.
  Proof.
    intros Hok Hnd S. induction S as [|n s S IH Hf]; constructor.
    - inversion Hok; inversion Hnd; auto.
    - inversion Hok as [|? ? Hn Hok']; inversion Hnd as [|? ? Hn' Hnd']; subst.
      rewrite Forall_forall in *. intros n' Hin. specialize (Hf n' Hin).
      destruct (key_cmp n n') eqn:E; [|reflexivity|contradiction]. exfalso. apply key_eq in E.
      destruct E as [Eb Em]. assert (n = n') by (apply okN_ext; auto). subst. contradiction.
  Qed.

  Definition okset f : Prop := Forall okN f /\ NoDup f.

  Lemma sorted_set f : okset f ->
    let s := sort_nets (hash_iter f) in
    (forall x, In x s <-> In x f) /\ okset s /\ StronglySorted (fun n n' => key_cmp n n' = Lt) s /\
    List.length s = List.length f.
  Proof.
    intros [Hok Hnd] s.
    assert (P : Permutation s f).
    { unfold s. etransitivity; [apply sort_nets_perm|apply hash_iter_perm]. }
    assert (Hok' : Forall okN s) by (eapply Permutation_Forall; [apply Permutation_sym; exact P|assumption]).
    assert (Hnd' : NoDup s) by (eapply Permutation_NoDup; [apply Permutation_sym; exact P|assumption]).
    split; [intros x; split; apply Permutation_in; [assumption|now apply Permutation_sym]|].
    split; [split; assumption|]. split; [|now apply Permutation_length].
    apply sorted_strict; try assumption. apply sort_nets_sorted.
  Qed.

  Definition merge_pair f ni nj := set_insert (merged ni nj) (set_remove nj (set_remove ni f)).

  Lemma merge_step_spec f : okset f ->
    (exists ni nj, In ni f /\ In nj f /\ partner ni nj /\ merge_step f = Ret (inl (merge_pair f ni nj))) \/
    (forall ni nj, In ni f -> In nj f -> ~ partner ni nj) /\ merge_step f = Ret (inr f).
  Proof.
    intros Hf. destruct (sorted_set f Hf) as (Hin & [Hok Hnd] & S & _). unfold merge_step.
    set (s := sort_nets (hash_iter f)) in *.
    destruct (merge_i_spec s Hok S) as [(ni & nj & Hi & Hj & P & E)|[Hno E]]; rewrite E; cbn [bind].
    - left. exists ni, nj. rewrite <- !Hin. auto.
    - right. split; [|reflexivity]. intros ni nj Hi Hj. apply Hno; now apply Hin.
  Qed.

  Lemma partner_neq ni nj : okN ni -> okN nj -> partner ni nj -> ni <> nj.
  Proof. intros Hi Hj P ->. apply partner_lt in P; auto. lia. Qed.

  Lemma merge_pair_In f ni nj x :
    In x (merge_pair f ni nj) <-> x = merged ni nj \/ (In x f /\ x <> ni /\ x <> nj).
  Proof. unfold merge_pair. rewrite In_insert, !In_remove. tauto. Qed.

  Lemma merge_pair_ok f ni nj : okset f -> In ni f -> In nj f -> partner ni nj ->
    okset (merge_pair f ni nj) /\ (List.length (merge_pair f ni nj) < List.length f)%nat.
  Proof.
    intros [Hok Hnd] Hi Hj P. pose proof Hok as Hok'. rewrite Forall_forall in Hok'.
    assert (Hne : ni <> nj) by (apply partner_neq; auto). split; [split|].
    - apply Forall_forall. intros x Hx. apply merge_pair_In in Hx. destruct Hx as [->|[Hx _]]; auto.
      apply merged_ok; auto.
    - apply NoDup_insert, NoDup_remove, NoDup_remove, Hnd.
    - unfold merge_pair. pose proof (insert_length (merged ni nj) (set_remove nj (set_remove ni f))) as H1.
      pose proof (remove_length ni f Hnd Hi) as H2.
      pose proof (remove_length nj (set_remove ni f) (NoDup_remove _ _ Hnd)) as H3.
      rewrite In_remove in H3. specialize (H3 (conj Hj (not_eq_sym Hne))). lia.
  Qed.

  Definition union l a : Prop := exists n, In n l /\ mem n a.

  Lemma merge_pair_union f ni nj a : okset f -> In ni f -> In nj f -> partner ni nj -> okA a ->
    (union (merge_pair f ni nj) a <-> union f a).
  Proof.
    intros [Hok Hnd] Hi Hj P Ha. rewrite Forall_forall in Hok. unfold union. split.
    - intros (n & Hn & Hm). apply merge_pair_In in Hn. destruct Hn as [->|[Hn _]]; [|eauto].
      apply merged_mem in Hm; auto. destruct Hm; eauto.
    - intros (n & Hn & Hm). destruct (net_dec n ni) as [->|H1].
      { exists (merged ni nj). split; [apply merge_pair_In; auto|]. apply merged_mem; auto. }
      destruct (net_dec n nj) as [->|H2].
      { exists (merged ni nj). split; [apply merge_pair_In; auto|]. apply merged_mem; auto. }
      exists n. split; [apply merge_pair_In; auto|assumption].
  Qed.

  (** ** CIDR networks *)
  Lemma partner_siblings ni nj : cidr ni -> cidr nj -> partner ni nj -> siblings ni nj.
  Proof.
    intros Hi Hj P. destruct (partner_bit ni nj (proj1 Hi) (proj1 Hj) P) as (k & HkW & Hk & Hm).
    pose proof (partner_lt ni nj (proj1 Hi) (proj1 Hj) P) as Hlt. destruct P as (Em & En & _).
    assert (Es : size ni = size nj) by (unfold size; now rewrite Em).
    assert (Ev : v (bs nj) = v (bs ni) + size ni).
    { destruct Hi as [Oi [p Hp]]. rewrite (contig_v (mk ni) (bs nj) p Hp), (contig_v (mk ni) (bs ni) p Hp).
      rewrite (host_zero ni), (host_zero nj) by (auto; apply Hj). rewrite En. unfold size. lia. }
    split; [assumption|]. split; [assumption|].
    (* bj = bi xor 2^k > bi, so bit k of bi is clear and bj = bi + 2^k *)
    assert (Hbj : v (bs nj) = N.lxor (v (bs ni)) (2 ^ k)).
    { rewrite <- Hk, <- N.lxor_assoc, N.lxor_nilpotent, N.lxor_0_l. reflexivity. }
    destruct (N.testbit (v (bs ni)) k) eqn:Eb.
    - exfalso. assert (Hadd : v (bs nj) + 2 ^ k = v (bs ni)); [|lia].
      assert (Ex : v (bs ni) = N.lxor (v (bs nj)) (2 ^ k)) by (rewrite Hbj, N.lxor_assoc, N.lxor_nilpotent, N.lxor_0_r; reflexivity).
      rewrite Ex at 1. rewrite <- N.add_nocarry_lxor; [reflexivity|].
      apply N.bits_inj. intros i. rewrite N.land_spec, N.bits_0, N.pow2_bits_eqb, Hbj, N.lxor_spec, N.pow2_bits_eqb.
      destruct (N.eqb_spec k i) as [<-|]; [now rewrite Eb|apply andb_false_r].
    - assert (Hadd : v (bs nj) = v (bs ni) + 2 ^ k).
      { rewrite Hbj. symmetry. apply N.add_nocarry_lxor. apply N.bits_inj. intros i.
        rewrite N.land_spec, N.bits_0, N.pow2_bits_eqb. destruct (N.eqb_spec k i) as [<-|]; [now rewrite Eb|apply andb_false_r]. }
      assert (Ek : size ni = 2 ^ k) by lia. rewrite Ek.
      pose proof (aligned ni Hi) as Al. rewrite Ek in Al. rewrite <- N.pow_succ_r'.
      rewrite N.pow_succ_r', N.mul_comm. rewrite N.mod_mul_r by (apply N.pow_nonzero || idtac; discriminate).
      rewrite Al, N.add_0_l. rewrite N.testbit_eqb in Eb.
      apply N.eqb_neq in Eb. assert (H0 : (v (bs ni) / 2 ^ k) mod 2 = 0).
      { pose proof (N.mod_lt (v (bs ni) / 2 ^ k) 2 ltac:(discriminate)) as H2. clear -H2 Eb. revert H2 Eb. generalize ((v (bs ni) / 2 ^ k) mod 2). intros; lia. }
      rewrite H0. apply N.mul_0_r.
  Qed.

  Lemma siblings_partner ni nj : cidr ni -> cidr nj -> siblings ni nj -> partner ni nj.
  Proof.
    intros Hi Hj (Es & Ev & Ea).
    assert (Em : mk ni = mk nj).
    { destruct Hi as [Oi [p Hp]], Hj as [Oj [q Hq]].
      pose proof (contig_kt _ _ Hp) as [_ Hp1]. pose proof (contig_kt _ _ Hq) as [_ Hq1].
      unfold size in Es. apply N.pow_inj_r in Es; [|lia].
      pose proof Hp as Hp2. pose proof Hq as Hq2. apply contig_repeat in Hp2, Hq2. rewrite bts_length in Hp2, Hq2.
      destruct Hp2 as [Hp2 Ep], Hq2 as [Hq2 Eq]. assert (p = q) by lia. subst q.
      apply bts_inj; [apply Oi|apply Oj|congruence]. }
    split; [assumption|].
    assert (En : nv (mk ni) (bs nj) = nv (mk ni) (bs ni) + 1).
    { destruct Hi as [Oi [p Hp]]. rewrite (contig_v (mk ni) (bs nj) p Hp), (contig_v (mk ni) (bs ni) p Hp) in Ev.
      rewrite (host_zero ni), (host_zero nj) in Ev by (auto; apply Hj). rewrite !N.add_0_r in Ev.
      unfold size in Ev. pose proof (pow2_pos (N.of_nat (hf (mk ni)))) as Hpos.
      apply (N.mul_cancel_r _ _ (2 ^ N.of_nat (hf (mk ni)))); [lia|]. lia. }
    split; [assumption|].
    apply (one_bit_inv _ (N.of_nat (hf (mk ni)))). fold (v (bxor (bs ni) (bs nj))).
    rewrite v_xor by (apply Hi || apply Hj). rewrite Ev. unfold size in *. set (k := N.of_nat (hf (mk ni))) in *.
    rewrite N.add_nocarry_lxor.
    - rewrite <- N.lxor_assoc, N.lxor_nilpotent. apply N.lxor_0_l.
    - apply N.bits_inj. intros i. rewrite N.land_spec, N.bits_0, N.pow2_bits_eqb.
      destruct (N.eqb_spec k i) as [<-|]; [|apply andb_false_r]. rewrite andb_true_r.
      rewrite <- N.pow_succ_r' in Ea. rewrite <- (N.mod_pow2_bits_low _ (N.succ k)) by lia.
      rewrite Ea. apply N.bits_0.
  Qed.

  Lemma merged_cidr ni nj : cidr ni -> cidr nj -> partner ni nj -> cidr (merged ni nj).
  Proof.
    intros Hi Hj P. pose proof (partner_siblings ni nj Hi Hj P) as (Es & Ev & Ea).
    assert (Hlog : exists j, j <= WN /\ 2 * size ni = 2 ^ j).
    { exists (N.succ (N.of_nat (hf (mk ni)))). rewrite N.pow_succ_r'. split; [|reflexivity].
      destruct (partner_bit ni nj (proj1 Hi) (proj1 Hj) P) as (k & HkW & _ & Hm).
      assert (hf (mk ni) <> W).
      { intros E. pose proof (kt_hf (mk ni)) as K.
        assert (E0 : kt (mk ni) = 0%nat) by lia.
        pose proof (nv_lt (mk ni) (bs nj)) as Hlt. rewrite E0 in Hlt. change (2 ^ N.of_nat 0) with 1 in Hlt.
        destruct P as (_ & En & _). lia. }
      pose proof (kt_hf (mk ni)). lia. }
    destruct Hlog as (j & HjW & Ej). rewrite Ej in Ea.
    destruct (block_at (v (bs ni)) j Ea HjW (v_lt _)) as (n & Hn & Eb & En).
    assert (n = merged ni nj); [|subst; assumption].
    pose proof (merged_ok ni nj (proj1 Hi) (proj1 Hj)) as Ho.
    assert (Hiff : forall a, okA a -> (mem n a <-> mem (merged ni nj) a)).
    { intros a Ha. rewrite (merged_mem ni nj a (proj1 Hi) (proj1 Hj) P Ha).
      rewrite !mem_interval by assumption. lia. }
    apply superset_antisym; [apply Hn|assumption| |];
      (apply superset_spec; [assumption || apply Hn|assumption || apply Hn|]); intros a Ha; now apply Hiff.
  Qed.

  Definition antichain f : Prop := forall n n', In n f -> In n' f -> is_superset_of n n' = true -> n = n'.

  Lemma first_filter_antichain l : Forall okN l -> antichain (first_filter l).
  Proof.
    intros Hl n n' Hn Hn' S. rewrite first_filter_In in Hn, Hn' by assumption.
    destruct (net_dec n n') as [|Hne]; [assumption|]. exfalso. apply (proj2 Hn' n); [apply Hn|]. now split.
  Qed.

  Lemma antichain_disjoint f n n' a : Forall cidr f -> antichain f -> In n f -> In n' f ->
    mem n a -> mem n' a -> n = n'.
  Proof.
    intros Hc Ha Hn Hn' M M'. rewrite Forall_forall in Hc.
    destruct (cidr_trichotomy n n' (Hc n Hn) (Hc n' Hn')) as [S|[S|S]].
    - now apply Ha.
    - symmetry. now apply Ha.
    - exfalso. now apply (S a).
  Qed.

  Lemma merge_pair_antichain f ni nj :
    Forall cidr f -> antichain f -> In ni f -> In nj f -> partner ni nj ->
    Forall cidr (merge_pair f ni nj) /\ antichain (merge_pair f ni nj).
  Proof.
    intros Hc Ha Hi Hj P. pose proof Hc as Hc'. rewrite Forall_forall in Hc'.
    pose proof (Hc' ni Hi) as Ci. pose proof (Hc' nj Hj) as Cj.
    pose proof (merged_cidr ni nj Ci Cj P) as Cm. split.
    - apply Forall_forall. intros x Hx. apply merge_pair_In in Hx. destruct Hx as [->|[Hx _]]; auto.
    - intros n n' Hn Hn' S. rewrite merge_pair_In in Hn, Hn'.
      destruct Hn as [->|(Hn & H1 & H2)], Hn' as [->|(Hn' & H1' & H2')]; [reflexivity| | |auto].
      + exfalso. pose proof (Hc' n' Hn') as Cn'. apply superset_inside in S; try assumption.
        specialize (S (bs n') (okN_base n' (proj1 Cn')) (mem_base n')).
        apply merged_mem in S; try apply Ci; try apply Cj; auto; [|apply Cn'].
        destruct S as [S|S]; [apply H1'|apply H2'];
          (apply (antichain_disjoint f _ _ (bs n')); auto; apply mem_base).
      + exfalso. pose proof (Hc' n Hn) as Cn. apply superset_inside in S; try assumption.
        apply H1. apply (antichain_disjoint f _ _ (bs ni)); auto; [|apply mem_base].
        apply S; [apply Ci|]. apply merged_mem; try apply Ci; try apply Cj; auto. left. apply mem_base.
  Qed.

  (** ** The whole *)
  Lemma minimize_spec l : Forall okN l ->
    exists r, minimize_subnets l = Ret r /\ okset r /\
      StronglySorted (fun n n' => key_cmp n n' = Lt) r /\
      (List.length r <= List.length l)%nat /\
      (forall a, okA a -> (union r a <-> union l a)) /\
      (forall ni nj, In ni r -> In nj r -> ~ partner ni nj) /\
      (Forall cidr l -> Forall cidr r /\ antichain r).
  Proof.
    intros Hl. unfold minimize_subnets. fold (first_filter l). pose proof Hl as Hl'. rewrite Forall_forall in Hl'.
    pose (Inv := fun f => okset f /\ (List.length f <= List.length l)%nat /\
      (forall a, okA a -> (union f a <-> union l a)) /\ (Forall cidr l -> Forall cidr f /\ antichain f)).
    assert (H0 : Inv (first_filter l)).
    { unfold Inv. split; [split|split; [|split]].
      - apply Forall_forall. intros x Hx. apply first_filter_In in Hx; [|assumption]. now apply Hl'.
      - unfold first_filter. cbv zeta. apply eliminate_NoDup, NoDup_collect. constructor.
      - unfold first_filter. cbv zeta. etransitivity; [apply eliminate_length|].
        etransitivity; [apply collect_length|]. cbn [List.length]. rewrite Nat.add_0_r.
        rewrite (Permutation_length (sort_nets_perm l)). lia.
      - intros a Ha. split.
        + intros (n & Hn & Hm). apply first_filter_In in Hn; [|assumption]. exists n. tauto.
        + intros (n & Hn & Hm). destruct (first_filter_dom l Hl n Hn) as (n' & Hn' & S).
          exists n'. split; [assumption|]. pose proof Hn' as Hn2. apply first_filter_In in Hn2; [|assumption].
          rewrite superset_spec in S by (apply Hl'; tauto). auto.
      - intros Hc. split; [|now apply first_filter_antichain]. rewrite Forall_forall in *. intros x Hx.
        apply first_filter_In in Hx; [|now apply Forall_forall]. now apply Hc. }
    destruct (while_total merge_step Inv (fun f => N.of_nat (List.length f))
      (fun f => Inv f /\ forall ni nj, In ni f -> In nj f -> ~ partner ni nj) (first_filter l)) as (f & E & Hf & Hno).
    - intros f (Hok & Hlen & Hu & Hc). destruct (merge_step_spec f Hok) as [(ni & nj & Hi & Hj & P & ->)|[Hno ->]].
      + destruct (merge_pair_ok f ni nj Hok Hi Hj P) as [Hok' Hlen']. split; [|lia].
        split; [assumption|]. split; [lia|]. split.
        * intros a Ha. rewrite merge_pair_union by assumption. now apply Hu.
        * intros C. destruct (Hc C). now apply merge_pair_antichain.
      + split; [|assumption]. split; auto.
    - assumption.
    - apply set_small; apply H0.
    - rewrite E. cbn [bind]. destruct Hf as (Hok & Hlen & Hu & Hc).
      destruct (sorted_set f Hok) as (Hin & Hok' & S & Hlen').
      exists (sort_nets (hash_iter f)). split; [reflexivity|]. split; [assumption|]. split; [assumption|].
      split; [lia|]. split; [|split].
      + intros a Ha. rewrite <- (Hu a Ha). unfold union. split; intros (n & Hn & Hm); exists n; (split; [now apply Hin|assumption]).
      + intros ni nj Hi Hj. apply Hno; now apply Hin.
      + intros C. destruct (Hc C) as [Hc1 Hc2]. split.
        * rewrite Forall_forall in *. intros x Hx. apply Hc1. now apply Hin.
        * intros n n' Hn Hn'. apply Hc2; now apply Hin.
  Qed.

  Lemma minimize_cidr l : Forall cidr l ->
    exists r, minimize_subnets l = Ret r /\ okset r /\
      StronglySorted (fun n n' => key_cmp n n' = Lt) r /\
      (forall a, okA a -> (union r a <-> union l a)) /\
      Forall cidr r /\ Forall (maximal (union r)) r /\
      (forall n, cidr n -> inside n (union r) -> exists e, In e r /\ is_superset_of e n = true).
  Proof.
    intros Hc. assert (Hl : Forall okN l) by (eapply Forall_impl; [|exact Hc]; intros n Hn; apply Hn).
    destruct (minimize_spec l Hl) as (r & E & Hok & S & Hlen & Hu & Hno & Hcr). destruct (Hcr Hc) as [Hc' Ha].
    assert (Hns : forall n n', In n r -> In n' r -> ~ siblings n n').
    { intros n n' Hn Hn' C. rewrite Forall_forall in Hc'. apply (Hno n n' Hn Hn'). apply siblings_partner; auto. }
    exists r. repeat (split; [assumption|]). split.
    - now apply no_siblings_maximal.
    - now apply cover_in_one.
  Qed.

  Lemma maximal_ext P Q n : (forall a, okA a -> (P a <-> Q a)) -> maximal P n -> maximal Q n.
  Proof.
    intros H (Hn & Hi & Hm). split; [assumption|]. split.
    - intros a Ha M. apply H; auto.
    - intros n' Hn' Hi'. apply Hm; [assumption|]. intros a Ha M. apply H; auto.
  Qed.

  (** Lists of maximal networks of the same set have the same members. *)
  Lemma maximal_incl P l l' : Forall (maximal P) l -> Forall (maximal P) l' ->
    (forall a, okA a -> (P a <-> union l' a)) -> forall n, In n l -> In n l'.
  Proof.
    intros Hl Hl' Hu n Hn. rewrite Forall_forall in Hl, Hl'. destruct (Hl n Hn) as (Cn & In' & _).
    destruct (proj1 (Hu (bs n) (okN_base n (proj1 Cn)))) as (n' & Hn' & M).
    - apply In'; [apply Cn|apply mem_base].
    - assert (n = n'); [|now subst]. apply (maximal_disjoint P n n' (bs n)); auto. apply mem_base.
  Qed.
End Facts.
