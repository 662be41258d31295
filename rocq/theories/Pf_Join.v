(** * Pf_Join: proofs for P_Join *)
From Verif Require Import RustBase Addr BitManip Cidr Net Minimize Spec SpecJoin Bits Weave Bytes Laws NetFacts SetFacts Family Loops Blocks Order MinimizeFacts EnvFacts Demo Pf_Net Pf_Minimize.
From Coq Require Import ZifyBool ZifyNat ZifyN.
Ltac Zify.zify_post_hook ::= idtac.

(** *** Numbers *)
Lemma lxor_pow_add x k : N.testbit x k = false -> N.lxor x (2 ^ k) = x + 2 ^ k.
Proof.
  intros E. symmetry. apply N.add_nocarry_lxor. apply N.bits_inj. intros i.
  rewrite N.land_spec, N.bits_0, N.pow2_bits_eqb. destruct (N.eqb_spec k i) as [<-|]; [now rewrite E|apply andb_false_r].
Qed.
Lemma clear_add x k : N.testbit x k = true -> x = N.clearbit x k + 2 ^ k.
Proof.
  intros E. rewrite <- lxor_pow_add by (rewrite N.clearbit_eqb, N.eqb_refl; apply andb_false_r).
  apply N.bits_inj. intros i. rewrite N.lxor_spec, N.clearbit_eqb, N.pow2_bits_eqb.
  destruct (N.eqb_spec k i) as [<-|]; [rewrite E; reflexivity|]. cbn. rewrite andb_true_r, xorb_false_r. reflexivity.
Qed.
Lemma low_zero_mod x k : (forall i, i < k -> N.testbit x i = false) -> x mod 2 ^ k = 0.
Proof.
  intros H. apply N.bits_inj. intros i. rewrite N.bits_0. destruct (N.lt_ge_cases i k) as [C|C].
  - rewrite N.mod_pow2_bits_low by assumption. auto.
  - now rewrite N.mod_pow2_bits_high.
Qed.

(** The loop, apart from what surrounds it. *)
Lemma minimize_ends `{R : Rust} {A : Type} `{I : IpAddress A} (l f r : list (network A)) :
  while merge_step (first_filter l) = Ret f -> minimize_subnets l = Ret r -> sort_nets (hash_iter f) = r.
Proof. unfold minimize_subnets. fold (first_filter l). intros ->. cbn [bind]. intros E. now injection E. Qed.

Section Facts.
  Context `{R : Rust} {F : family}.
  Implicit Types (n ni nj e d : net F) (l f s : list (net F)).
  Notation mk n := (subnet_mask n).
  Notation bs n := (base_addr n).

  Lemma value_okN n : okN n -> v (bs n) = value (bs n) /\ v (mk n) = value (mk n).
  Proof. intros Hn. split; apply value_v; apply valid_ok; apply Hn. Qed.

  Lemma host_bits_zero n i : okN n -> i < width F -> N.testbit (value (mk n)) i = false -> N.testbit (value (bs n)) i = false.
  Proof. intros Hn. apply wf_okN in Hn. apply Hn. Qed.

  Lemma before_key n n' : okN n -> okN n' -> (key_cmp n n' = Lt <-> before n n').
  Proof.
    intros Hn Hn'. rewrite key_cmp_lt by assumption. unfold before.
    destruct (value_okN n Hn) as [-> ->], (value_okN n' Hn') as [-> ->]. reflexivity.
  Qed.

  Lemma merged_mask_bits n n' k : okN n -> okN n' -> N.lxor (value (bs n)) (value (bs n')) = 2 ^ k ->
    value (mk (merged n n')) = N.clearbit (value (mk n)) k.
  Proof.
    intros Hn Hn' Hk. destruct (value_okN _ (merged_ok n n' Hn Hn')) as [_ <-].
    destruct (value_okN n Hn) as [Eb Em], (value_okN n' Hn') as [Eb' _].
    destruct (law_xor _ _ (okN_base n Hn) (okN_base n' Hn')) as [Hx _]. destruct (law_neg _ Hx) as [Hxn _].
    apply N.bits_inj. intros i. rewrite N.clearbit_eqb.
    destruct (N.lt_ge_cases i (width F)) as [C|C].
    - unfold merged. cbn [subnet_mask new_with_mask]. rewrite v_and by (assumption || apply Hn).
      rewrite N.land_spec. rewrite width_W in C. rewrite testbit_neg by assumption. rewrite v_xor by (apply Hn || apply Hn').
      rewrite Eb, Eb', Em, Hk, N.pow2_bits_eqb. reflexivity.
    - rewrite (testbit_high _ (width F) i) by (try assumption; rewrite width_W; apply v_lt). rewrite <- Em.
      rewrite (testbit_high _ (width F) i) by (try assumption; rewrite width_W; apply v_lt). reflexivity.
  Qed.

  Lemma hv0_value (m a : addr F) : okA m -> okA a ->
    (hv m a = 0 <-> forall i, i < width F -> N.testbit (value m) i = false -> N.testbit (value a) i = false).
  Proof.
    intros Hm Ha. rewrite hv0_testbit, width_W, !value_v by now apply valid_ok. reflexivity.
  Qed.

  Lemma of_val x : x < 2 ^ width F -> exists a : addr F, okA a /\ value a = x.
  Proof.
    intros Hx. rewrite width_W in Hx. destruct (of_value x Hx) as (a & Ha & E). exists a. split; [assumption|].
    rewrite <- value_v; [assumption|now apply valid_ok].
  Qed.
  Lemma val_lt (a : addr F) : okA a -> value a < 2 ^ width F.
  Proof. intros Ha. rewrite <- value_v by now apply valid_ok. rewrite width_W. apply v_lt. Qed.

  Lemma val_net_lt (m a b : addr F) : okA a -> okA b -> hv m a = hv m b -> (value a < value b <-> nv m a < nv m b).
  Proof. intros Ha Hb E. rewrite <- !value_v by now apply valid_ok. now apply net_lt. Qed.

  Lemma partner_halves ni nj : okN ni -> okN nj -> partner ni nj -> halves (merged ni nj) ni nj.
  Proof.
    intros Hi Hj P. destruct (partner_bit ni nj Hi Hj P) as (k & Hk & Hx & Hm).
    pose proof (partner_lt ni nj Hi Hj P) as Hlt. destruct P as (Em & En & _).
    pose proof (host_zero ni (mk ni) Hi eq_refl) as Zi. pose proof (host_zero nj (mk ni) Hj (eq_sym Em)) as Zj.
    destruct (value_okN ni Hi) as [Ebi Emi], (value_okN nj Hj) as [Ebj Emj].
    rewrite Ebi, Ebj, Emi in *. rewrite <- width_W in Hk.
    pose proof (okN_base ni Hi) as Oi. pose proof (okN_base nj Hj) as Oj. pose proof (okN_mask ni Hi) as Om.
    assert (Hbj : value (bs nj) = N.lxor (value (bs ni)) (2 ^ k)).
    { rewrite <- Hx, <- N.lxor_assoc, N.lxor_nilpotent, N.lxor_0_l. reflexivity. }
    assert (Hbi : value (bs ni) = N.lxor (value (bs nj)) (2 ^ k)).
    { rewrite Hbj, N.lxor_assoc, N.lxor_nilpotent, N.lxor_0_r. reflexivity. }
    assert (Hbit : N.testbit (value (bs ni)) k = false).
    { destruct (N.testbit (value (bs ni)) k) eqn:E; [|reflexivity]. exfalso.
      rewrite lxor_pow_add in Hbi; [lia|]. rewrite Hbj, N.lxor_spec, E, N.pow2_bits_true. reflexivity. }
    rewrite lxor_pow_add in Hbj by assumption.
    pose proof (merged_mask_bits ni nj k Hi Hj Hx) as HM.
    split; [apply wf_okN; now apply merged_ok|]. split; [now apply wf_okN|]. split; [now apply wf_okN|].
    exists k. split; [assumption|]. split; [assumption|]. split.
    { intros i Hik. destruct (N.testbit (value (mk ni)) i) eqn:Ei; [exfalso|reflexivity].
      assert (Hp : 2 ^ i < 2 ^ k) by (apply N.pow_lt_mono_r; [lia|assumption]).
      assert (Hpos : 0 < 2 ^ i) by apply pow2_pos.
      assert (Hlow : N.testbit (value (bs nj)) i = N.testbit (value (bs ni)) i).
      { rewrite Hbj, <- lxor_pow_add, N.lxor_spec, N.pow2_bits_false by (assumption || lia). apply xorb_false_r. }
      assert (Hin : exists x, value (bs ni) < x < value (bs nj) /\
        forall j, N.testbit (value (mk ni)) j = false -> N.testbit x j = N.testbit (value (bs ni)) j \/ N.testbit x j = N.testbit (value (bs nj)) j).
      { destruct (N.testbit (value (bs ni)) i) eqn:Eb.
        - exists (N.clearbit (value (bs nj)) i). pose proof (clear_add (value (bs nj)) i Hlow) as Hc.
          split; [lia|]. intros j Ej. right. rewrite N.clearbit_neq; [reflexivity|]. congruence.
        - exists (N.lxor (value (bs ni)) (2 ^ i)). rewrite lxor_pow_add by assumption. split; [lia|].
          intros j Ej. left. rewrite <- lxor_pow_add, N.lxor_spec, N.pow2_bits_false by (assumption || congruence). apply xorb_false_r. }
      destruct Hin as (x & Hxr & Hxb). destruct (of_val x) as (a & Ha & Ea).
      { pose proof (val_lt _ Oj). lia. }
      subst x. assert (Za : hv (mk ni) a = 0).
      { apply hv0_value; [assumption..|]. intros j Hj' Ej.
        pose proof (proj1 (hv0_value _ _ Om Oi) Zi j Hj' Ej). pose proof (proj1 (hv0_value _ _ Om Oj) Zj j Hj' Ej).
        destruct (Hxb j Ej); congruence. }
      destruct Hxr as [H1 H2]. apply (val_net_lt (mk ni)) in H1; try assumption; [|congruence].
      apply (val_net_lt (mk ni)) in H2; try assumption; [|congruence]. lia. }
    split; [now symmetry|].
    assert (Eb : bs (merged ni nj) = bs ni).
    { assert (Eval : value (bs (merged ni nj)) = value (bs ni)).
      { destruct (value_okN _ (merged_ok ni nj Hi Hj)) as [<- _]. rewrite <- Ebi.
        unfold merged. cbn [new_with_mask base_addr].
        assert (OM : okA (mk (merged ni nj))) by now apply okN_mask, merged_ok.
        change (band (mk ni) (bitwise_negate (bxor (bs ni) (bs nj)))) with (mk (merged ni nj)).
        rewrite v_and by assumption. rewrite Ebi, value_v by now apply valid_ok. rewrite HM.
        apply N.bits_inj. intros j. rewrite N.land_spec, N.clearbit_eqb.
        destruct (N.testbit (value (bs ni)) j) eqn:Ej; [|reflexivity].
        assert (j < width F).
        { destruct (N.lt_ge_cases j (width F)) as [|C]; [assumption|].
          rewrite (testbit_high _ (width F) j) in Ej by (try assumption; now apply val_lt). discriminate. }
        rewrite hv0_value in Zi by assumption. destruct (N.testbit (value (mk ni)) j) eqn:Emj'; [|rewrite Zi in Ej by assumption; discriminate].
        destruct (N.eqb_spec k j) as [<-|]; [congruence|reflexivity]. }
      apply v_inj; [now apply okN_base, merged_ok|assumption|].
      rewrite !value_v by (apply valid_ok; first [assumption | now apply okN_base, merged_ok]). assumption. }
    split; [now rewrite Eb|]. rewrite HM, Eb. split; [|assumption].
    apply clear_add. assumption.
  Qed.

  Lemma halves_bit e n n' : halves e n n' -> exists k, k < width F /\
    N.lxor (value (bs n)) (value (bs n')) = 2 ^ k /\ N.testbit (value (mk n)) k = true /\
    (forall i, i < k -> N.testbit (value (mk n)) i = false) /\ value (mk e) = N.clearbit (value (mk n)) k /\
    value (bs n') = value (bs n) + 2 ^ k.
  Proof.
    intros (We & Wn & Wn' & k & Hk & Hb & Hlow & Em & Eb & Ev & Ev'). exists k.
    assert (Hm : value (mk e) = N.clearbit (value (mk n)) k).
    { pose proof (clear_add _ _ Hb). lia. }
    assert (Hc : N.testbit (value (bs e)) k = false).
    { apply wf_okN in We. apply host_bits_zero; [assumption..|]. rewrite Hm, N.clearbit_eqb, N.eqb_refl. apply andb_false_r. }
    split; [assumption|]. rewrite Ev', Eb. split.
    { rewrite <- lxor_pow_add, <- N.lxor_assoc, N.lxor_nilpotent by assumption. apply N.lxor_0_l. }
    auto.
  Qed.

  Lemma halves_partner e n n' : halves e n n' -> partner n n' /\ e = merged n n'.
  Proof.
    intros H. destruct (halves_bit e n n' H) as (k & Hk & Hx & Hb & Hlow & HM & Ev).
    destruct H as (We & Wn & Wn' & k' & Hk' & _ & _ & Em & Eb & _).
    apply wf_okN in We, Wn, Wn'. clear k' Hk'.
    pose proof (okN_base n Wn) as On. pose proof (okN_base n' Wn') as On'. pose proof (okN_mask n Wn) as Om.
    pose proof (host_zero n (mk n) Wn eq_refl) as Zi. pose proof (host_zero n' (mk n) Wn' Em) as Zj.
    assert (P : partner n n').
    { split; [now symmetry|]. split.
      - assert (Hlt : nv (mk n) (bs n) < nv (mk n) (bs n')).
        { apply val_net_lt; [assumption..|congruence|]. pose proof (pow2_pos k). lia. }
        pose proof (nv_lt (mk n) (bs n')) as Hb'.
        destruct (N.lt_ge_cases (nv (mk n) (bs n) + 1) (nv (mk n) (bs n'))) as [C|C]; [exfalso|lia].
        destruct (of_nv_hv (mk n) (nv (mk n) (bs n) + 1) 0) as (a & Ha & Na & Za); [lia|apply pow2_pos|].
        assert (H1 : value (bs n) < value a) by (apply (val_net_lt (mk n)); [assumption..|congruence|lia]).
        assert (H2 : value a < value (bs n')) by (apply (val_net_lt (mk n)); [assumption..|congruence|lia]).
        assert (Z : forall c, okA c -> hv (mk n) c = 0 -> value c mod 2 ^ k = 0).
        { intros c Hc Hz. apply low_zero_mod. intros i Hi. rewrite hv0_value in Hz by assumption. apply Hz; [lia|auto]. }
        pose proof (Z _ On Zi) as M1. pose proof (Z _ Ha Za) as M2.
        pose proof (pow2_pos k) as Hp. rewrite Ev in H2. revert M1 M2 H1 H2 Hp. clear.
        generalize (value (bs n)) (value a) (2 ^ k). intros x y p M1 M2 H1 H2 Hp.
        pose proof (N.div_mod' x p) as D1. pose proof (N.div_mod' y p) as D2. rewrite M1 in D1. rewrite M2 in D2.
        set (q := x / p) in *. set (r := y / p) in *. clearbody q r.
        assert (q < r) by nia. nia.
      - apply (one_bit_inv _ k). fold (v (bxor (bs n) (bs n'))). rewrite v_xor by assumption.
        rewrite !value_v by now apply valid_ok. assumption. }
    split; [assumption|].
    pose proof (merged_ok n n' Wn Wn') as Wm.
    apply okN_ext; [assumption..| |].
    - apply v_inj; [now apply okN_mask..|]. rewrite !value_v by (apply valid_ok; now apply okN_mask).
      now rewrite HM, (merged_mask_bits n n' k).
    - destruct (partner_halves n n' Wn Wn' P) as (_ & _ & _ & k' & _ & _ & _ & _ & Eb' & _). congruence.
  Qed.

  Lemma halves_det e d n n' (m' : net F) : halves e n n' -> halves d n m' -> n' = m' /\ e = d.
  Proof.
    intros H1 H2. assert (E : n' = m').
    { destruct (halves_bit e n n' H1) as (k1 & Hk1 & _ & Hb1 & Hl1 & _ & Ev1).
      destruct (halves_bit d n m' H2) as (k2 & Hk2 & _ & Hb2 & Hl2 & _ & Ev2).
      assert (k1 = k2).
      { destruct (N.lt_trichotomy k1 k2) as [C|[C|C]]; [|assumption|]; [specialize (Hl2 _ C)|specialize (Hl1 _ C)]; congruence. }
      subst k2. destruct H1 as (_ & _ & W1 & ? & _ & _ & _ & Em1 & _), H2 as (_ & _ & W2 & ? & _ & _ & _ & Em2 & _).
      apply wf_okN in W1, W2. apply okN_ext; [assumption..|congruence|].
      apply v_inj; [now apply okN_base..|]. rewrite !value_v by (apply valid_ok; now apply okN_base). congruence. }
    split; [assumption|]. subst m'. apply halves_partner in H1, H2. destruct H1 as [_ ->], H2 as [_ ->]. reflexivity.
  Qed.

  (** *** The first pair *)
  Lemma merge_i_first s :
    Forall okN s -> StronglySorted (fun n n' => key_cmp n n' = Lt) s ->
    (exists ni nj, In ni s /\ In nj s /\ partner ni nj /\ merge_i s = Ret (Some (ni, nj, merged ni nj)) /\
       forall m m', In m s -> In m' s -> partner m m' -> m = ni \/ key_cmp ni m = Lt) \/
    (forall ni nj, In ni s -> In nj s -> ~ partner ni nj) /\ merge_i s = Ret None.
  Proof.
    induction s as [|n s IH]; intros Hok S.
    - right. split; [intros ? ? []|reflexivity].
    - inversion Hok as [|? ? Hn Hok']; subst. inversion S as [|? ? S' Hf]; subst.
      cbn [merge_i]. pose proof Hok' as Hok2. pose proof Hf as Hf2. rewrite Forall_forall in Hok2, Hf2.
      destruct (merge_j_spec n s Hn Hok' Hf) as [(nj & Hin & P & E)|[Hno E]].
      + left. exists n, nj. rewrite E. cbn [bind]. split; [now left|]. split; [now right|]. split; [assumption|].
        split; [reflexivity|]. intros m m' [<-|Hm] _ _; auto.
      + rewrite E. cbn [bind].
        assert (Irr : forall x : net F, okN x -> ~ partner x x) by (intros x Hx P; apply partner_lt in P; auto; lia).
        assert (Rev : forall m m', In m (n :: s) -> In m' (n :: s) -> partner m m' -> In m s /\ In m' s).
        { intros m m' [<-|Hm] [<-|Hm'] P; [exfalso; exact (Irr _ Hn P)|exfalso; exact (Hno _ Hm' P)| |auto].
          exfalso. apply partner_key in P; auto. specialize (Hf2 m Hm). rewrite key_sym, Hf2 in P. discriminate. }
        destruct (IH Hok' S') as [(ni & nj & Hi & Hj & P & E' & Hfirst)|[Hno' E']].
        * left. exists ni, nj. split; [now right|]. split; [now right|]. split; [assumption|]. split; [assumption|].
          intros m m' Hm Hm' Pm. destruct (Rev m m' Hm Hm' Pm). eauto.
        * right. split; [|assumption]. intros m m' Hm Hm' Pm. destruct (Rev m m' Hm Hm' Pm) as [X X']. exact (Hno' m m' X X' Pm).
  Qed.

  Lemma merge_step_first f : okset f ->
    (exists ni nj, In ni f /\ In nj f /\ partner ni nj /\ merge_step f = Ret (inl (merge_pair f ni nj)) /\
       forall m m', In m f -> In m' f -> partner m m' -> m = ni \/ key_cmp ni m = Lt) \/
    (forall ni nj, In ni f -> In nj f -> ~ partner ni nj) /\ merge_step f = Ret (inr f).
  Proof.
    intros Hf. destruct (sorted_set f Hf) as (Hin & [Hok Hnd] & S & _). unfold merge_step.
    set (s := sort_nets (@hash_iter R (network (addr F)) f)) in *.
    destruct (merge_i_first s Hok S) as [(ni & nj & Hi & Hj & P & E & Hfirst)|[Hno E]]; rewrite E; cbn [bind].
    - left. exists ni, nj. rewrite <- !Hin. split; [assumption|]. split; [assumption|]. split; [assumption|]. split; [reflexivity|].
      intros m m' Hm Hm'. apply Hfirst; now apply Hin.
    - right. split; [|reflexivity]. intros ni nj Hi Hj. apply Hno; now apply Hin.
  Qed.

  Lemma before_irr n : ~ before n n.
  Proof. unfold before. lia. Qed.
  Lemma before_trans n n' (n'' : net F) : before n n' -> before n' n'' -> before n n''.
  Proof. unfold before. lia. Qed.

  Lemma sorted_before s : Forall okN s -> StronglySorted (fun n n' => key_cmp n n' = Lt) s -> StronglySorted before s.
  Proof.
    intros Hok S. induction S as [|n s S IH Hf]; constructor.
    - apply IH. now inversion Hok.
    - inversion Hok as [|? ? Hn Hok']; subst. rewrite Forall_forall in *. intros x Hx. apply before_key; auto.
  Qed.

  Lemma first_filter_okset l : Forall okN l -> okset (first_filter l).
  Proof.
    intros Hl. split.
    - apply Forall_forall. intros x Hx. apply first_filter_In in Hx; [|assumption].
      rewrite Forall_forall in Hl. now apply Hl.
    - unfold first_filter. cbv zeta. apply eliminate_NoDup, NoDup_collect. constructor.
  Qed.

  Lemma minimize_joined l r : Forall okN l -> minimize_subnets l = Ret r -> joined (first_filter l) r.
  Proof.
    intros Hl Er. pose proof (first_filter_okset l Hl) as H0.
    pose (Inv := fun f : list (net F) => okset f /\ forall r, joined f r -> joined (first_filter l) r).
    destruct (while_total merge_step Inv (fun f => N.of_nat (List.length f))
      (fun f => Inv f /\ forall ni nj, In ni f -> In nj f -> ~ partner ni nj) (first_filter l)) as (f & E & (Hok & Hj) & Hno).
    - intros f (Hok & Hj). destruct (merge_step_first f Hok) as [(ni & nj & Hi & Hj' & P & -> & Hfirst)|[Hno ->]].
      + destruct (merge_pair_ok f ni nj Hok Hi Hj' P) as [Hok' Hlen']. split; [|unfold net in *; lia].
        split; [assumption|]. intros r' Hr'. apply Hj. destruct Hok as [Hok _]. rewrite Forall_forall in Hok.
        apply joined_step with (e := merged ni nj) (n := ni) (n' := nj) (l' := merge_pair f ni nj); try assumption.
        * apply partner_halves; auto.
        * intros d m m' Hm Hm' Hh. apply halves_partner in Hh. destruct Hh as [Pm _].
          destruct (Hfirst m m' Hm Hm' Pm) as [|Hk]; [auto|]. right. apply before_key; auto.
        * intros x. apply merge_pair_In.
      + split; [|assumption]. split; assumption.
    - split; auto.
    - apply set_small; apply H0.
    - pose proof (minimize_ends l f r E Er) as <-. destruct (sorted_set f Hok) as (Hin & [Hok' _] & S & _).
      apply Hj. apply joined_done.
      + intros e n n' Hn Hn' Hh. apply halves_partner in Hh. now apply (Hno n n').
      + assumption.
      + now apply sorted_before.
  Qed.

  Lemma first_filter_outermost l : Forall okN l -> outermost l (first_filter l).
  Proof.
    intros Hl n. etransitivity; [exact (first_filter_In l Hl n)|]. pose proof Hl as Hl'. rewrite Forall_forall in Hl'.
    split; intros [Hn H]; (split; [assumption|]); intros n' Hn'.
    - intros Hi. destruct (net_dec n' n) as [|Hne]; [assumption|]. exfalso. apply (H n' Hn'). split; [|assumption].
      apply c20_superset; [apply wf_okN; auto..|assumption].
    - intros [S Hne]. apply Hne. apply H; [assumption|]. apply c20_superset in S; [assumption|apply wf_okN; auto..].
  Qed.

  Lemma joined_det l r : joined l r -> forall l' r' : list (net F), (forall x, In x l <-> In x l') -> joined l' r' -> r = r'.
  Proof.
    induction 1 as [l r Hno Hin S|l r e n n' l1 Hn Hn' Hh Hfirst Hl1 _ IH]; intros l' r' Hs Hj.
    - inversion Hj as [Hno' Hin' S'|d m m' l2 Hm Hm' Hh']; subst.
      + apply (strictly_sorted_ext before); [apply before_irr|intros x y z; apply before_trans|assumption..|].
        intros x. now rewrite Hin, Hin', Hs.
      + exfalso. apply (Hno d m m'); [now apply Hs..|assumption].
    - inversion Hj as [Hno' Hin' S'|d m m' l2 Hm Hm' Hh' Hfirst' Hl2 Hj2]; subst.
      + exfalso. apply (Hno' e n n'); [now apply Hs..|assumption].
      + assert (m = n).
        { destruct (Hfirst d m m') as [|B1]; [now apply Hs..|assumption|assumption|].
          destruct (Hfirst' e n n') as [|B2]; [now apply Hs..|assumption|congruence|].
          exfalso. apply (before_irr n). now apply before_trans with m. }
        subst m. destruct (halves_det _ _ _ _ _ Hh Hh') as [<- <-].
        apply (IH l2); [|assumption]. intros x. now rewrite Hl1, Hl2, Hs.
  Qed.

  Lemma halves_members e n n' (a : addr F) : halves e n n' -> valid a -> (member e a <-> member n a \/ member n' a).
  Proof.
    intros H Ha. destruct (halves_partner e n n' H) as [P ->]. destruct H as (We & Wn & Wn' & _).
    rewrite !member_wf by assumption. apply merged_mem; [now apply wf_okN..|assumption|now apply valid_ok].
  Qed.

  Lemma joined_parts l r : joined l r -> forall e (a : addr F), In e r -> valid a -> member e a ->
    exists n k, In n l /\ member n a /\ includes e n /\
      forall i, N.testbit (value (mk e)) i = N.testbit (value (mk n)) i && (k <=? i).
  Proof.
    induction 1 as [l r Hno Hin S|l r e0 n n' l1 Hn Hn' Hh Hfirst Hl1 _ IH]; intros e a He Ha Hm.
    - exists e, 0. split; [now apply Hin|]. split; [assumption|]. split; [intros x _ Hx; exact Hx|].
      intros i. rewrite (proj2 (N.leb_le 0 i)) by lia. symmetry. apply andb_true_r.
    - destruct (IH e a He Ha Hm) as (n1 & k & Hn1 & Hm1 & Hi1 & Hb1). apply Hl1 in Hn1.
      destruct Hn1 as [->|[Hn1 _]]; [|now exists n1, k].
      assert (Hi : includes e n /\ includes e n').
      { split; intros x Hx Hmx; apply Hi1; try assumption; apply (halves_members e0 n n' x Hh Hx); auto. }
      assert (Hb : exists k', forall i, N.testbit (value (mk e)) i = N.testbit (value (mk n)) i && (k' <=? i)).
      { destruct (halves_bit e0 n n' Hh) as (k0 & _ & _ & _ & Hlow & HM & _).
        exists (N.max k (k0 + 1)). intros i. rewrite Hb1, HM, N.clearbit_eqb.
        destruct (N.testbit (value (mk n)) i) eqn:Ei; [|reflexivity]. cbn [andb].
        assert (k0 <= i). { destruct (N.lt_ge_cases i k0) as [C|]; [|assumption]. rewrite Hlow in Ei by assumption. discriminate. }
        destruct (N.eqb_spec k0 i), (N.leb_spec k i), (N.leb_spec (N.max k (k0 + 1)) i); try reflexivity; lia. }
      destruct Hb as [k' Hb]. pose proof (proj1 (halves_members e0 n n' a Hh Ha) Hm1) as [Hx|Hx].
      + exists n, k'. tauto.
      + exists n', k'. replace (mk n') with (mk n); [tauto|]. destruct Hh as (_ & _ & _ & k2 & _ & _ & _ & Em & _). now symmetry.
  Qed.
End Facts.

Lemma c78_exact : forall (R : Rust) (F : family) (l r : list (net F)),
  Forall wf_net l ->
  (minimize_subnets l = Ret r <-> exists o, outermost l o /\ joined o r).
Proof.
  intros R F l r Hl. pose proof (proj1 (wf_list l) Hl) as Ho. split.
  - intros E. exists (first_filter l). split; [now apply first_filter_outermost|now apply minimize_joined].
  - intros (o & Hout & Hj). destruct (c40_returns R F l Hl) as (r0 & E & _). rewrite E. f_equal.
    apply (joined_det (first_filter l) r0 (minimize_joined l r0 Ho E) o r); [|assumption].
    intros x. rewrite (Hout x). apply (first_filter_outermost l Ho x).
Qed.

Lemma c78_no_halves : forall (R : Rust) (F : family) (l r : list (net F)) (e n n' : net F),
  Forall wf_net l -> minimize_subnets l = Ret r -> In n r -> In n' r -> ~ halves e n n'.
Proof.
  intros R F l r e n n' Hl E Hn Hn' Hh. apply halves_partner in Hh.
  destruct (min_inv l r Hl E) as (_ & _ & _ & _ & Hno & _). now apply (Hno n n').
Qed.

Lemma c78_parts : forall (R : Rust) (F : family) (l r : list (net F)) (e : net F) (a : addr F),
  Forall wf_net l -> minimize_subnets l = Ret r -> In e r -> valid a -> member e a ->
  exists n k, In n l /\ member n a /\ includes e n /\
    forall i, N.testbit (value (subnet_mask e)) i = N.testbit (value (subnet_mask n)) i && (k <=? i).
Proof.
  intros R F l r e a Hl E He Ha Hm. pose proof (proj1 (wf_list l) Hl) as Ho.
  destruct (joined_parts _ _ (minimize_joined l r Ho E) e a He Ha Hm) as (n & k & Hn & H).
  exists n, k. split; [|assumption]. apply first_filter_In in Hn; [apply Hn|assumption].
Qed.

Lemma c78_not_inside : forall (R : Rust) (F : family) (l r : list (net F)) (e n : net F),
  Forall wf_net l -> minimize_subnets l = Ret r -> In e r -> In n l -> includes n e -> n = e.
Proof.
  intros R F l r e n Hl E He Hn Hi. pose proof (proj1 (wf_list l) Hl) as Ho.
  assert (Hwr : wf_net e).
  { destruct (c40_returns R F l Hl) as (r0 & E0 & Hw). rewrite E in E0. injection E0 as <-.
    rewrite Forall_forall in Hw. auto. }
  assert (Hm : member e (base_addr e)).
  { apply member_wf; [assumption|apply Hwr|apply mem_base]. }
  destruct (joined_parts _ _ (minimize_joined l r Ho E) e (base_addr e) He (wf_base _ Hwr) Hm) as (n1 & k & Hn1 & _ & Hi1 & _).
  apply (first_filter_outermost l Ho n1) in Hn1. destruct Hn1 as [Hin1 Hout].
  assert (n = n1). { apply Hout; [assumption|]. intros x Hx Hmx. apply Hi; auto. }
  subst n1. rewrite Forall_forall in Hl. pose proof (Hl n Hn) as Wn.
  destruct (c21_partial_order R F n e n Wn Hwr Wn) as (_ & _ & Anti).
  apply Anti; now apply c20_superset.
Qed.
