(** * Pf_Embed: proofs for P_Embed *)
From Verif Require Import RustBase Addr BitManip Cidr Net Derange Minimize Split Resize Enumerate Spec SpecCount SpecJoin SpecMove Bits Blocks Laws NetFacts SetFacts Family Order ResizeFacts SplitFacts Pf_Net Pf_Minimize Pf_Derange Pf_Split Pf_Resize Pf_Enum Pf_Compose Pf_Count Pf_Join Pf_Move Demo.
From Coq Require Import ZifyBool ZifyNat ZifyN.
Ltac Zify.zify_post_hook ::= idtac.

Local Notation Q := (2 ^ 32).
Ltac nums := change (width V4) with 32 in *; change (width V6) with 128 in *;
  change (2 ^ 32) with 4294967296 in *; change (2 ^ 96) with 79228162514264337593543950336 in *;
  change (2 ^ 128) with 340282366920938463463374607431768211456 in *.

Lemma wide_low u x i : x < Q -> i < 32 -> N.testbit (u * Q + x) i = N.testbit x i.
Proof.
  intros Hv Hi. rewrite <- (N.mod_pow2_bits_low (u * Q + x) 32 i Hi). rewrite N.add_comm, N.mod_add by discriminate. now rewrite N.mod_small.
Qed.
Lemma wide_high u x i : x < Q -> N.testbit (u * Q + x) (i + 32) = N.testbit u i.
Proof.
  intros Hv. rewrite <- N.div_pow2_bits. rewrite N.add_comm, N.div_add by discriminate. now rewrite N.div_small.
Qed.
Lemma wide_div u x : x < Q -> (u * Q + x) / Q = u /\ (u * Q + x) mod Q = x.
Proof.
  intros Hv. rewrite N.add_comm, N.div_add, N.mod_add by discriminate. now rewrite N.div_small, N.mod_small.
Qed.
Lemma wide_split c : c = (c / Q) * Q + c mod Q.
Proof. rewrite N.mul_comm. apply N.div_mod'. Qed.

Section Wide.
  Context {R : Rust}.

  Definition wide (u : N) (a : addr V4) : addr V6 := of_n V6 (u * Q + value a).
  Lemma v4_lt (a : addr V4) : valid a -> value a < Q.
  Proof. intros Va. exact Va. Qed.
  Lemma wide_spec u a : u < 2 ^ 96 -> valid a -> valid (wide u a) /\ value (wide u a) = u * Q + value a.
  Proof. intros Hu Va. apply of_n_spec. pose proof (v4_lt a Va). nums. lia. Qed.
  Lemma wide_inj u a b : u < 2 ^ 96 -> valid a -> valid b -> wide u a = wide u b -> a = b.
  Proof.
    intros Hu Va Vb E. apply (value_inj (R := R)); [assumption..|]. pose proof (proj2 (wide_spec u a Hu Va)) as Ea. rewrite E, (proj2 (wide_spec u b Hu Vb)) in Ea.
    lia.
  Qed.
  Lemma emb_wide u a a' : u < 2 ^ 96 -> valid a -> (embedded_addr u a a' <-> a' = wide u a).
  Proof.
    intros Hu Va. destruct (wide_spec u a Hu Va) as [V E]. split.
    - intros [V' E']. apply (value_inj (R := R)); [assumption..|congruence].
    - intros ->. now split.
  Qed.

  Lemma emb_mask_bit (m : addr V4) m' : valid m -> embedded_addr (2 ^ 96 - 1) m m' -> forall i, i < 128 ->
    N.testbit (value m') i = if i <? 32 then N.testbit (value m) i else true.
  Proof.
    intros Vm [V E] i Hi. rewrite E. destruct (N.ltb_spec i 32) as [L|L].
    - now apply wide_low.
    - replace i with ((i - 32) + 32) by lia. rewrite wide_high by assumption.
      replace (2 ^ 96 - 1) with (N.ones 96) by reflexivity. apply N.ones_spec_low. lia.
  Qed.
  Lemma emb_base_bit u (b : addr V4) b' : valid b -> embedded_addr u b b' -> forall i,
    N.testbit (value b') i = if i <? 32 then N.testbit (value b) i else N.testbit u (i - 32).
  Proof.
    intros Vb [V E] i. rewrite E. destruct (N.ltb_spec i 32) as [L|L].
    - now apply wide_low.
    - replace i with ((i - 32) + 32) at 1 by lia. now apply wide_high.
  Qed.

  Lemma narrow (a' : addr V6) : valid a' -> exists a : addr V4, valid a /\ value a' / Q < 2 ^ 96 /\ embedded_addr (value a' / Q) a a'.
  Proof.
    intros V. destruct (of_n_spec V4 (value a' mod Q)) as [Va Ea]; [now apply N.mod_lt|]. exists (of_n V4 (value a' mod Q)).
    split; [assumption|]. split.
    - apply N.div_lt_upper_bound; [discriminate|]. change (Q * 2 ^ 96) with (2 ^ width V6). now apply (value_lt (R := R)).
    - split; [assumption|]. rewrite Ea. apply wide_split.
  Qed.

End Wide.

Section Embed.
  Context {R : Rust} (pre : N) (Hpre : pre < 2 ^ 96).

  Lemma emb_mem n n' : wf_net n -> embedded pre n n' -> forall c', valid c' ->
    (member n' c' <-> exists c, valid c /\ wide pre c = c' /\ member n c).
  Proof.
    intros W (W' & Hb & Hm) c' V'. split.
    - intros H. destruct (narrow c' V') as (c & Vc & Hu & Ec).
      assert (Eu : value c' / Q = pre).
      { apply N.bits_inj. intros i. destruct (N.lt_ge_cases i 96) as [L|L].
        - assert (L2 : i + 32 < 128) by lia. specialize (H (i + 32) L2). rewrite (emb_mask_bit _ _ (wf_mask n W) Hm _ L2) in H.
          replace (i + 32 <? 32) with false in H by lia. specialize (H eq_refl).
          rewrite (emb_base_bit _ _ _ Vc Ec), (emb_base_bit _ _ _ (wf_base n W) Hb) in H.
          replace (i + 32 <? 32) with false in H by lia. now rewrite N.add_sub in H.
        - rewrite !(testbit_high _ 96) by assumption. reflexivity. }
      rewrite Eu in Ec. exists c. split; [assumption|]. split; [symmetry; now apply emb_wide|].
      intros i Hi Ei. assert (L2 : i < 128) by (nums; lia). specialize (H i L2). rewrite (emb_mask_bit _ _ (wf_mask n W) Hm _ L2) in H.
      rewrite (emb_base_bit _ _ _ Vc Ec), (emb_base_bit _ _ _ (wf_base n W) Hb) in H.
      rewrite (proj2 (N.ltb_lt i 32) Hi) in H. now apply H.
    - intros (c & Vc & Ec & H) i Hi Ei. symmetry in Ec. apply (emb_wide pre c c' Hpre Vc) in Ec.
      rewrite (emb_mask_bit _ _ (wf_mask n W) Hm _ Hi) in Ei.
      rewrite (emb_base_bit _ _ _ Vc Ec), (emb_base_bit _ _ _ (wf_base n W) Hb).
      destruct (N.ltb_spec i 32) as [L|L]; [now apply H|reflexivity].
  Qed.

  (** Networks one way and back. *)
  Lemma contiguous_wide (m : addr V4) m' p : valid m -> embedded_addr (2 ^ 96 - 1) m m' ->
    (contiguous V4 (value m) p <-> contiguous V6 (value m') (96 + p)).
  Proof.
    intros Vm [V E]. pose proof (v4_lt m Vm) as L. unfold contiguous, prefix_mask. rewrite E. cbn [width].
    assert (G : 32 - p <= 32) by lia. assert (K : 2 ^ (32 - p) <= Q) by (apply N.pow_le_mono_r; [discriminate|assumption]).
    pose proof (pow2_pos (32 - p)) as Kp.
    replace (128 - (96 + p)) with (32 - p) by lia. revert K Kp. generalize (2 ^ (32 - p)). intros k K Kp. nums. lia.
  Qed.
  Lemma prefix_wide n n' p : wf_net n -> embedded pre n n' -> (is_cidr n p <-> is_cidr n' (96 + p)).
  Proof.
    intros W (W' & Hb & Hm). unfold is_cidr. rewrite (wf_prefix n W), (wf_prefix n' W').
    rewrite (contiguous_wide _ _ p (wf_mask n W) Hm). tauto.
  Qed.
  Lemma prefix_wide_ge (m : addr V4) m' q : valid m -> embedded_addr (2 ^ 96 - 1) m m' -> contiguous V6 (value m') q -> 96 <= q.
  Proof.
    intros Vm [V E] [Hq Em]. rewrite E in Em. unfold prefix_mask in Em. pose proof (v4_lt m Vm) as L.
    apply N.nlt_ge. intros C. assert (K : 2 ^ 33 <= 2 ^ (width V6 - q)) by (apply N.pow_le_mono_r; [discriminate|nums; lia]).
    change (2 ^ 33) with 8589934592 in K. revert Em K. generalize (2 ^ (width V6 - q)). intros k. nums. lia.
  Qed.

  Definition six (n : net V4) : net V6 :=
    {| base_addr := wide pre (base_addr n); subnet_mask := wide (2 ^ 96 - 1) (subnet_mask n); cidr_prefix := option_map (N.add 96) (cidr_prefix n) |}.
  Lemma six_emb n : wf_net n -> embedded pre n (six n).
  Proof.
    intros W. assert (H1 : 2 ^ 96 - 1 < 2 ^ 96) by reflexivity.
    assert (Eb : embedded_addr pre (base_addr n) (wide pre (base_addr n))) by (apply emb_wide; [assumption|apply W|reflexivity]).
    assert (Em : embedded_addr (2 ^ 96 - 1) (subnet_mask n) (wide (2 ^ 96 - 1) (subnet_mask n))) by (apply emb_wide; [assumption|apply W|reflexivity]).
    split; [|split; assumption]. unfold six. constructor; cbn [base_addr subnet_mask cidr_prefix].
    - apply Eb.
    - apply Em.
    - intros i Hi Ei. rewrite (emb_mask_bit _ _ (wf_mask n W) Em _ Hi) in Ei. rewrite (emb_base_bit _ _ _ (wf_base n W) Eb).
      destruct (N.ltb_spec i 32) as [L|L]; [|discriminate]. now apply (wf_host n W).
    - intros q. destruct (N.lt_ge_cases q 96) as [L|L].
      + split.
        * destruct (cidr_prefix n) as [p|]; cbn [option_map]; [intros E; assert (96 + p = q) by congruence; lia|discriminate].
        * intros C. apply (prefix_wide_ge _ _ q (wf_mask n W) Em) in C. lia.
      + replace q with (96 + (q - 96)) by lia. rewrite <- (contiguous_wide _ _ _ (wf_mask n W) Em), <- (wf_prefix n W).
        destruct (cidr_prefix n) as [p|]; cbn [option_map]; [|split; discriminate].
        split; intros E; f_equal; [assert (96 + p = 96 + (q - 96)) by congruence|assert (p = q - 96) by congruence]; lia.
  Qed.
  Lemma emb_unique n n' n'' : embedded pre n n' -> embedded pre n n'' -> n' = n''.
  Proof.
    intros (W & [V E] & [Vm Em]) (W' & [V' E'] & [Vm' Em']).
    assert (H1 : base_addr n' = base_addr n'') by (apply (value_inj (R := R)); [assumption..|congruence]).
    assert (H2 : subnet_mask n' = subnet_mask n'') by (apply (value_inj (R := R)); [assumption..|congruence]).
    apply (includes_eq R); [assumption..| |]; intros c Vc Hc i Hi Ei; unfold member in Hc; rewrite H1, H2 in *; now apply Hc.
  Qed.
  Lemma emb_six n n' : wf_net n -> (embedded pre n n' <-> n' = six n).
  Proof.
    intros W. split; [intros H; apply (emb_unique n); [assumption|now apply six_emb]|intros ->; now apply six_emb].
  Qed.
  Lemma emb_list l l' : Forall wf_net l -> (Forall2 (embedded pre) l l' <-> l' = map six l).
  Proof.
    intros W. split.
    - intros H. induction H as [|n n' l l' Hn H IH]; [reflexivity|]. inversion W; subst. cbn [map]. f_equal; [now apply emb_six|now apply IH].
    - intros ->. induction W as [|n l Hn W IH]; cbn [map]; constructor; [now apply six_emb|assumption].
  Qed.

  Lemma back n' : wf_net n' -> value (base_addr n') / Q = pre -> value (subnet_mask n') / Q = 2 ^ 96 - 1 ->
    exists n, wf_net n /\ embedded pre n n'.
  Proof.
    intros W Eb Em. destruct (narrow (base_addr n') (wf_base n' W)) as (b & Vb & _ & Hb). rewrite Eb in Hb.
    destruct (narrow (subnet_mask n') (wf_mask n' W)) as (m & Vm & _ & Hm). rewrite Em in Hm.
    destruct (c17_with_mask R V4 b m Vb Vm) as (Wn & _ & E1 & E2). exists (@new_with_mask (addr V4) (@addr_ops R V4) b m). split; [exact Wn|].
    split; [assumption|]. replace (subnet_mask (@new_with_mask (addr V4) (@addr_ops R V4) b m)) with m by (symmetry; exact E1). split; [|assumption]. split; [apply W|].
    etransitivity; [apply Hb|]. f_equal. etransitivity; [|symmetry; exact E2]. symmetry.
    apply N.bits_inj. intros i. rewrite N.land_spec. destruct (N.lt_ge_cases i 32) as [L|L].
    - pose proof (wf_host n' W i ltac:(nums; lia)) as H. rewrite (emb_mask_bit _ _ Vm Hm i ltac:(lia)), (emb_base_bit _ _ _ Vb Hb) in H.
      rewrite (proj2 (N.ltb_lt i 32) L) in H. destruct (N.testbit (value m) i); [apply andb_true_r|]. now rewrite H.
    - rewrite (testbit_high (value b) 32) by assumption. reflexivity.
  Qed.

  Definition stands n n' := cidr_net n /\ embedded pre n n'.
  Lemma st_ok a : valid a -> valid (wide pre a).
  Proof. intros Va. now apply wide_spec. Qed.
  Lemma st_inj a b : valid a -> valid b -> wide pre a = wide pre b -> a = b.
  Proof. now apply wide_inj. Qed.
  Lemma st_mem n n' : stands n n' -> forall c', valid c' -> (member n' c' <-> exists c, valid c /\ wide pre c = c' /\ member n c).
  Proof. intros [[p Hp] H]. apply emb_mem; [apply Hp|assumption]. Qed.
  Lemma st_cidr n n' : stands n n' -> cidr_net n -> cidr_net n'.
  Proof. intros [_ H] [p Hp]. exists (96 + p). apply (prefix_wide n n' p); [apply Hp|assumption..]. Qed.
  Lemma st_ex n : cidr_net n -> exists n', stands n n'.
  Proof. intros [p Hp]. exists (six n). split; [now exists p|]. apply six_emb, Hp. Qed.
  Lemma st_back n' : cidr_net n' -> (forall c', valid c' -> member n' c' -> exists c, valid c /\ wide pre c = c') -> exists m, cidr_net m /\ stands m n'.
  Proof.
    intros [q Hq] H. pose proof (proj1 Hq) as W.
    assert (K : forall c, valid c -> member n' c -> value c / Q = pre).
    { intros c' Vc Hc. destruct (H c' Vc Hc) as (c & V & <-). rewrite (proj2 (wide_spec pre c Hpre V)). now apply wide_div. }
    pose proof (K (base_addr n') (wf_base n' W) (member_base n')) as Eb.
    destruct (base_aligned n' q Hq) as (_ & Top & Lq). pose proof (pow2_pos (width V6 - q)) as Hp.
    assert (Hge : 96 <= q).
    { apply N.nlt_ge. intros C. assert (L : 2 ^ 33 <= 2 ^ (width V6 - q)) by (apply N.pow_le_mono_r; [discriminate|nums; lia]).
      change (2 ^ 33) with (Q + Q) in L.
      destruct (of_n_spec V6 (value (base_addr n') + Q)) as [V E]; [nums; lia|].
      assert (M : member n' (of_n V6 (value (base_addr n') + Q))).
      { apply (member_interval (R := R) n' q); [assumption..|]. rewrite E. nums. lia. }
      apply K in M; [|assumption]. rewrite E in M. replace (value (base_addr n') + Q) with (value (base_addr n') + 1 * Q) in M by (nums; lia).
      rewrite N.div_add in M by discriminate. lia. }
    assert (Em : value (subnet_mask n') / Q = 2 ^ 96 - 1).
    { pose proof (proj2 Hq) as Hc. apply (wf_prefix n' W) in Hc. destruct Hc as [_ ->]. unfold prefix_mask. symmetry.
      assert (L : 2 ^ (width V6 - q) <= Q) by (apply N.pow_le_mono_r; [discriminate|nums; lia]).
      apply (N.div_unique _ _ _ (Q - 2 ^ (width V6 - q))); revert L Hp; generalize (2 ^ (width V6 - q)); intros k; nums; lia. }
    destruct (back n' W Eb Em) as (n & Wn & Hn). exists n.
    assert (Cn : cidr_net n).
    { exists (q - 96). apply (prefix_wide n n' (q - 96) Wn Hn). replace (96 + (q - 96)) with q by lia. assumption. }
    split; [assumption|]. now split.
  Qed.
  Definition st_derange := T_derange (R := R) (wide pre) stands st_ok st_inj st_mem st_cidr st_ex st_back.
End Embed.

Lemma emb_pre u (a : addr V4) a' : embedded_addr u a a' -> u < 2 ^ 96.
Proof.
  intros [V E]. pose proof (value_lt (R := debug_env) a' V) as L. rewrite E in L. nums. lia.
Qed.
Lemma emb_net_pre u n n' : embedded u n n' -> u < 2 ^ 96.
Proof. intros (_ & H & _). exact (emb_pre _ _ _ H). Qed.

Lemma c82_embedded : forall (R : Rust) (pre : N) (n : net V4),
  pre < 2 ^ 96 -> wf_net n ->
  exists n', embedded pre n n' /\ (forall n'', embedded pre n n'' -> n'' = n') /\
    (forall a' : addr V6, valid a' -> (member n' a' <-> exists a, valid a /\ embedded_addr pre a a' /\ member n a)) /\
    forall p, is_cidr n p <-> is_cidr n' (96 + p).
Proof.
  intros R pre n Hp W. pose proof (six_emb (R := R) pre Hp n W) as H. exists (six pre n). split; [assumption|]. split.
  - intros n'' H'. apply (emb_unique (R := R) pre n); assumption.
  - split.
    + intros a' V'. rewrite (emb_mem (R := R) pre Hp n _ W H a' V'). split; intros (a & Va & E & M); exists a; (split; [assumption|]); (split; [|assumption]).
      * apply (proj2 (emb_wide (R := R) pre a a' Hp Va)). now symmetry.
      * symmetry. now apply (proj1 (emb_wide (R := R) pre a a' Hp Va)).
    + intros p. now apply (prefix_wide pre).
Qed.

Lemma c82_derange : forall (R : Rust) (pre : N) (a b : addr V4) (a' b' : addr V6) (l : list (net V4)),
  valid a -> valid b -> embedded_addr pre a a' -> embedded_addr pre b b' -> range_to_subnets a b = Ret l ->
  exists l', range_to_subnets a' b' = Ret l' /\ Forall2 (embedded pre) l l'.
Proof.
  intros R pre a b a' b' l Va Vb Ha Hb E. pose proof (emb_pre _ _ _ Ha) as Hp.
  pose proof Ha as [Va' Ea]. pose proof Hb as [Vb' Eb]. pose proof (v4_lt a Va) as La. pose proof (v4_lt b Vb) as Lb.
  assert (Ht : N.max (value a) (value b) <> 2 ^ width V4 - 1) by (apply (c37_returns_iff R V4 a b Va Vb); eauto).
  destruct (proj2 (c37_returns_iff R V6 a' b' Va' Vb')) as (l' & E'); [rewrite Ea, Eb; nums; lia|].
  exists l'. split; [assumption|].
  destruct (st_derange (R := R) pre Hp a b a' b' l l') as (l2 & H2 & P); [assumption..| |assumption|assumption|].
  { intros c' Vc'. split.
    - intros H. destruct (narrow (R := R) c' Vc') as (c & Vc & Hu & Ec). pose proof (v4_lt c Vc) as Lc.
      assert (Eu : value c' / Q = pre).
      { symmetry. apply (N.div_unique _ _ _ (value c' - pre * Q)); rewrite Ea, Eb in H; nums; lia. }
      rewrite Eu in Ec. exists c. split; [assumption|]. split; [symmetry; now apply (proj1 (emb_wide (R := R) pre c c' Hp Vc))|].
      destruct Ec as [_ Ec]. rewrite Ea, Eb, Ec in H. clear - H. nums. lia.
    - intros (c & Vc & <- & H). rewrite (proj2 (wide_spec pre c Hp Vc)), Ea, Eb. clear - H. nums. lia. }
  destruct (derange_sorted a b l Va Vb E) as [S _]. destruct (derange_sorted a' b' l' Va' Vb' E') as [S' _].
  assert (H2' : Forall2 (embedded pre) l l2) by (clear -H2; induction H2 as [|n n' l l2 [_ Hn] H2 IH]; constructor; assumption).
  replace l' with l2; [assumption|]. apply follows_same; [|assumption..].
  apply (sorted_image (stands pre) follows _ l l2 H2 S). intros n m n2 m2 Hn Hm Tn Tm (_ & _ & K).
  split; [apply Tn|]. split; [apply Tm|]. intros c d Vc Vd Mc Md.
  apply (st_mem (R := R) pre Hp n n2 Tn c Vc) in Mc. destruct Mc as (c0 & V0 & <- & M0).
  apply (st_mem (R := R) pre Hp m m2 Tm d Vd) in Md. destruct Md as (d0 & Vd0 & <- & Md0).
  specialize (K c0 d0 V0 Vd0 M0 Md0). rewrite !(fun c Hc => proj2 (wide_spec pre c Hp Hc)) by assumption. clear - K. lia.
Qed.

(** *** Answers *)
Section Answers.
  Context {R : Rust} (pre : N) (Hp : pre < 2 ^ 96) (n : net V4) (n' : net V6) (W : wf_net n) (H : embedded pre n n').
  Notation o4 := (@addr_ops R V4). Notation o6 := (@addr_ops R V6).
  Let W' : wf_net n' := proj1 H.

  Lemma em_to (c : addr V4) : valid c -> member n c -> valid (wide pre c) /\ member n' (wide pre c) /\ value (wide pre c) = pre * Q + value c.
  Proof.
    intros Vc Hc. destruct (wide_spec pre c Hp Vc) as [V E]. split; [assumption|]. split; [|assumption].
    apply (emb_mem (R := R) pre Hp n n' W H); [assumption|]. now exists c.
  Qed.
  Lemma em_from (c' : addr V6) : valid c' -> member n' c' -> exists c : addr V4, valid c /\ member n c /\ c' = wide pre c /\ value c' = pre * Q + value c.
  Proof.
    intros Vc Hc. apply (emb_mem (R := R) pre Hp n n' W H) in Hc; [|assumption]. destruct Hc as (c & V & <- & Hc).
    exists c. split; [assumption|]. split; [assumption|]. split; [reflexivity|]. now apply wide_spec.
  Qed.
  Lemma em_highest h h' : highest n h -> highest n' h' -> embedded_addr pre h h'.
  Proof.
    intros (Vh & Mh & Hh) (Vh' & Mh' & Hh'). split; [assumption|].
    destruct (em_to h Vh Mh) as (V1 & M1 & E1). destruct (em_from h' Vh' Mh') as (c & Vc & Mc & _ & Ec).
    specialize (Hh c Vc Mc). specialize (Hh' _ V1 M1). lia.
  Qed.
  Lemma em_lowest : value (base_addr n') = pre * Q + value (base_addr n).
  Proof. apply H. Qed.

  Lemma em_count : @address_count (addr V6) o6 n' = @address_count (addr V4) o4 n.
  Proof.
    destruct (c23_address_count R V4 n W) as [(l & Nd & Hl & <-) _]. destruct (c23_address_count R V6 n' W') as [(l' & Nd' & Hl' & <-) _].
    f_equal. rewrite <- (map_length (wide pre) l). apply Permutation_length, Permutation_sym, NoDup_Permutation; [|assumption|].
    - clear Nd' Hl'. assert (Hv : Forall valid l) by (apply Forall_forall; intros c Hc; now apply Hl). clear Hl.
      induction Nd as [|c l Hc Nd IH]; cbn [map]; constructor; inversion Hv as [|? ? V1 V2]; subst.
      + intros C. apply in_map_iff in C. destruct C as (d & E & Hd). rewrite Forall_forall in V2.
        apply (wide_inj (R := R) pre) in E; [now subst|assumption|now apply V2|assumption].
      + now apply IH.
    - intros c'. split.
      + intros C. apply in_map_iff in C. destruct C as (d & <- & Hd). apply Hl in Hd. destruct (em_to d) as (V & M & _); [apply Hd..|]. now apply Hl'.
      + intros C. apply Hl' in C. destruct (em_from c') as (c & Vc & Mc & -> & _); [apply C..|]. apply in_map, Hl. now split.
  Qed.

  Lemma em_first : embedded_answer pre (@first_host_addr (addr V4) o4 n) (@first_host_addr (addr V6) o6 n').
  Proof.
    pose proof em_count as Ec. destruct (c23_address_count R V4 n W) as [Hc _]. destruct (c23_address_count R V6 n' W') as [Hc' _].
    destruct (c24_first_host R V4 n _ W Hc) as [F1 F2]. destruct (c24_first_host R V6 n' _ W' Hc') as [G1 G2]. rewrite Ec in G1, G2.
    destruct (N.lt_ge_cases (@address_count (addr V4) o4 n) 4) as [L|L].
    - rewrite (F1 L), (G1 L). exact I.
    - destruct (F2 L) as (a & -> & Va & Ma & _ & Lb & Ha). destruct (G2 L) as (a' & -> & Va' & Ma' & _ & Lb' & Ha').
      split; [assumption|]. destruct (em_to a Va Ma) as (V1 & M1 & E1). destruct (em_from a' Va' Ma') as (c & Vc & Mc & _ & E2).
      pose proof em_lowest as E0. specialize (Ha c Vc Mc). specialize (Ha' _ V1 M1).
      destruct Ha as [->|Ha]; [lia|]. destruct Ha' as [Q1|Ha']; [rewrite Q1 in E1; lia|]. lia.
  Qed.
  Lemma em_last : embedded_answer pre (@last_host_addr R (addr V4) o4 n) (@last_host_addr R (addr V6) o6 n').
  Proof.
    pose proof em_count as Ec. destruct (c23_address_count R V4 n W) as [Hc _]. destruct (c23_address_count R V6 n' W') as [Hc' _].
    destruct (c26_last_host R V4 n _ W Hc) as [F1 F2]. destruct (c26_last_host R V6 n' _ W' Hc') as [G1 G2]. rewrite Ec in G1, G2.
    destruct (N.lt_ge_cases (@address_count (addr V4) o4 n) 4) as [L|L].
    - rewrite (F1 L), (G1 L). exact I.
    - destruct (F2 L) as (a & h & -> & Va & Ma & Hh & Lb & Ha). destruct (G2 L) as (a' & h' & -> & Va' & Ma' & Hh' & Lb' & Ha').
      split; [assumption|]. destruct (em_to a Va Ma) as (V1 & M1 & E1). destruct (em_from a' Va' Ma') as (c & Vc & Mc & _ & E2).
      destruct (em_highest h h' Hh Hh') as [_ E0]. specialize (Ha c Vc Mc). specialize (Ha' _ V1 M1).
      destruct Ha as [->|Ha]; [lia|]. destruct Ha' as [Q1|Ha']; [rewrite Q1 in E1; lia|]. lia.
  Qed.
  Lemma em_broadcast : embedded_answer pre (@broadcast_addr R (addr V4) o4 n) (@broadcast_addr R (addr V6) o6 n').
  Proof.
    pose proof em_count as Ec. destruct (c23_address_count R V4 n W) as [Hc _]. destruct (c23_address_count R V6 n' W') as [Hc' _].
    destruct (c25_broadcast R V4 n _ W Hc) as [F1 F2]. destruct (c25_broadcast R V6 n' _ W' Hc') as [G1 G2]. rewrite Ec in G1, G2.
    destruct (N.lt_ge_cases (@address_count (addr V4) o4 n) 2) as [L|L].
    - rewrite (F1 L), (G1 L). exact I.
    - destruct (F2 L) as (a & -> & Ha). destruct (G2 L) as (a' & -> & Ha'). now apply em_highest.
  Qed.
End Answers.

Lemma bool_iff (b b' : bool) : (b = true <-> b' = true) -> b = b'.
Proof. destruct b, b'; intuition congruence. Qed.

Lemma c82_answers : forall (R : Rust) (pre : N) (n m : net V4) (n' m' : net V6) (a : addr V4) (a' : addr V6),
  wf_net n -> wf_net m -> valid a -> embedded pre n n' -> embedded pre m m' -> embedded_addr pre a a' ->
  contains n' a' = contains n a /\
  is_superset_of n' m' = is_superset_of n m /\
  intersects n' m' = intersects n m /\
  address_count n' = address_count n /\ host_count n' = host_count n /\
  embedded_answer pre (first_host_addr n) (first_host_addr n') /\
  embedded_answer pre (last_host_addr n) (last_host_addr n') /\
  embedded_answer pre (broadcast_addr n) (broadcast_addr n').
Proof.
  intros R pre n m n' m' a a' Wn Wm Va Hn Hm Ha. pose proof (emb_net_pre _ _ _ Hn) as Hp.
  pose proof (proj1 Hn) as Wn'. pose proof (proj1 Hm) as Wm'.
  split; [|split; [|split; [|split; [|split; [|split; [|split]]]]]].
  - apply bool_iff. etransitivity; [exact (c19_contains R V6 n' a' Wn' (proj1 Ha))|]. etransitivity; [|symmetry; exact (c19_contains R V4 n a Wn Va)].
    rewrite (emb_mem (R := R) pre Hp n n' Wn Hn a' (proj1 Ha)). pose proof (proj1 (emb_wide (R := R) pre a a' Hp Va) Ha) as E. split.
    + intros (c & Vc & Ec & Mc). rewrite E in Ec. apply (wide_inj (R := R) pre) in Ec; [now subst|assumption..].
    + intros M. now exists a.
  - apply bool_iff. etransitivity; [exact (c20_superset R V6 n' m' Wn' Wm')|]. etransitivity; [|symmetry; exact (c20_superset R V4 n m Wn Wm)]. split; intros Hi c Vc Mc.
    + destruct (em_to (R := R) pre Hp m m' Wm Hm c Vc Mc) as (V & M & _). specialize (Hi _ V M).
      destruct (em_from (R := R) pre Hp n n' Wn Hn _ V Hi) as (d & Vd & Md & E & _). apply (wide_inj (R := R) pre) in E; [now subst|assumption..].
    + destruct (em_from (R := R) pre Hp m m' Wm Hm c Vc Mc) as (d & Vd & Md & -> & _). apply (em_to (R := R) pre Hp n n' Wn Hn d Vd). now apply Hi.
  - destruct (c25_last_addr R V4 n Wn) as (h & _ & Hh). destruct (c25_last_addr R V6 n' Wn') as (h' & _ & Hh').
    destruct (c25_last_addr R V4 m Wm) as (k & _ & Hk). destruct (c25_last_addr R V6 m' Wm') as (k' & _ & Hk').
    etransitivity; [exact (c22_intersects_exact R V6 n' m' h' k' Wn' Wm' Hh' Hk')|]. etransitivity; [|symmetry; exact (c22_intersects_exact R V4 n m h k Wn Wm Hh Hk)].
    destruct (em_highest (R := R) pre Hp n n' Wn Hn h h' Hh Hh') as [_ E1]. destruct (em_highest (R := R) pre Hp m m' Wm Hm k k' Hk Hk') as [_ E2].
    pose proof (em_lowest pre n n' Hn) as E3. pose proof (em_lowest pre m m' Hm) as E4.
    rewrite E1, E2, E3, E4. do 2 f_equal; apply bool_iff; rewrite !N.leb_le; lia.
  - exact (em_count (R := R) pre Hp n n' Wn Hn).
  - exact (f_equal (fun k => (Z.of_N k - 2)%Z) (em_count (R := R) pre Hp n n' Wn Hn)).
  - exact (em_first (R := R) pre Hp n n' Wn Hn).
  - exact (em_last (R := R) pre Hp n n' Wn Hn).
  - exact (em_broadcast (R := R) pre Hp n n' Wn Hn).
Qed.

Lemma c82_enumerate : forall (R : Rust) (pre : N) (n : net V4) (n' : net V6) (l : list (addr V4)),
  wf_net n -> embedded pre n n' -> enumerate_net n = Ret l ->
  exists l', enumerate_net n' = Ret l' /\ Forall2 (embedded_addr pre) l l'.
Proof.
  intros R pre n n' l W H E. pose proof (emb_net_pre _ _ _ H) as Hp.
  destruct (c55_lists_exactly R V4 n W) as (l0 & E0 & Hl & S). pose proof (eq_trans (eq_sym E) E0) as Ee. injection Ee as <-.
  destruct (c55_lists_exactly R V6 n' (proj1 H)) as (l' & E' & Hl' & S'). exists l'. split; [assumption|].
  assert (Hv : Forall valid l) by (apply Forall_forall; intros c Hc; now apply Hl).
  replace l' with (map (wide pre) l).
  - clear - Hv Hp. induction Hv as [|c l Vc Hv IH]; cbn [map]; constructor; [|assumption]. now apply wide_spec.
  - apply (strictly_sorted_ext (fun a b : addr V6 => value a < value b)); [intros x; apply N.lt_irrefl|intros x y z; apply N.lt_trans| |assumption|].
    + clear - Hv Hp S. induction S as [|c l S IH Hf]; cbn [map]; constructor; inversion Hv as [|? ? V1 V2]; subst.
      * now apply IH.
      * apply Forall_map. rewrite Forall_forall in *. intros d Hd. rewrite (proj2 (wide_spec pre c Hp V1)), (proj2 (wide_spec pre d Hp (V2 d Hd))).
        specialize (Hf d Hd). cbn beta in Hf. lia.
    + intros c'. rewrite (Hl' c'). split.
      * intros C. apply in_map_iff in C. destruct C as (d & <- & Hd). apply Hl in Hd.
        destruct (em_to (R := R) pre Hp n n' W H d) as (V & M & _); [apply Hd..|]. now split.
      * intros [V M]. destruct (em_from (R := R) pre Hp n n' W H c' V M) as (c & Vc & Mc & -> & _). apply in_map, Hl. now split.
Qed.

(** *** Minimizing *)
Section Joined.
  Context {R : Rust} (pre : N) (Hp : pre < 2 ^ 96).
  Implicit Types (n m e : net V4) (l r : list (net V4)).

  Lemma six_values n : wf_net n -> value (base_addr (six pre n)) = pre * Q + value (base_addr n) /\
    value (subnet_mask (six pre n)) = (2 ^ 96 - 1) * Q + value (subnet_mask n) /\ value (base_addr n) < Q /\ value (subnet_mask n) < Q.
  Proof.
    intros W. destruct (six_emb (R := R) pre Hp n W) as (_ & [_ Eb] & [_ Em]). split; [assumption|]. split; [assumption|].
    split; [apply v4_lt, W|apply v4_lt, W].
  Qed.
  Lemma six_inj n m : wf_net n -> wf_net m -> six pre n = six pre m -> n = m.
  Proof.
    intros Wn Wm E. destruct (six_values n Wn) as (A1 & A2 & _). destruct (six_values m Wm) as (B1 & B2 & _).
    rewrite E in A1, A2. assert (E1 : base_addr n = base_addr m) by (apply (value_inj (R := R)); [apply Wn|apply Wm|lia]).
    assert (E2 : subnet_mask n = subnet_mask m) by (apply (value_inj (R := R)); [apply Wn|apply Wm|lia]).
    apply (includes_eq R); [assumption..| |]; intros c Vc Hc i Hi Ei; unfold member in Hc; rewrite E1, E2 in *; now apply Hc.
  Qed.
  Lemma six_before n m : wf_net n -> wf_net m -> (before (six pre n) (six pre m) <-> before n m).
  Proof.
    intros Wn Wm. destruct (six_values n Wn) as (A1 & A2 & _). destruct (six_values m Wm) as (B1 & B2 & _).
    unfold before. rewrite A1, A2, B1, B2. clear. nums. lia.
  Qed.
  Lemma six_includes n m : wf_net n -> wf_net m -> (includes (six pre n) (six pre m) <-> includes n m).
  Proof.
    intros Wn Wm. pose proof (six_emb (R := R) pre Hp n Wn) as Hn. pose proof (six_emb (R := R) pre Hp m Wm) as Hm. split; intros Hi c Vc Mc.
    - destruct (em_to (R := R) pre Hp m _ Wm Hm c Vc Mc) as (V & M & _). specialize (Hi _ V M).
      destruct (em_from (R := R) pre Hp n _ Wn Hn _ V Hi) as (d & Vd & Md & E & _). apply (wide_inj (R := R) pre) in E; [now subst|assumption..].
    - destruct (em_from (R := R) pre Hp m _ Wm Hm c Vc Mc) as (d & Vd & Md & -> & _). apply (em_to (R := R) pre Hp n _ Wn Hn d Vd). now apply Hi.
  Qed.
  Lemma six_in n l : wf_net n -> Forall wf_net l -> (In (six pre n) (map (six pre) l) <-> In n l).
  Proof.
    intros Wn Wl. rewrite Forall_forall in Wl. split; [|apply in_map]. intros C. apply in_map_iff in C. destruct C as (m & E & Hm).
    apply six_inj in E; [now subst|now apply Wl|assumption].
  Qed.
  Lemma six_halves e n m : halves e n m -> halves (six pre e) (six pre n) (six pre m).
  Proof.
    intros (We & Wn & Wm & k & Hk & Ek & El & Em & Eb & Vm & Vb).
    pose proof (six_emb (R := R) pre Hp e We) as He. pose proof (six_emb (R := R) pre Hp n Wn) as Hn. pose proof (six_emb (R := R) pre Hp m Wm) as Hm.
    destruct (six_values e We) as (A1 & A2 & _). destruct (six_values n Wn) as (B1 & B2 & _). destruct (six_values m Wm) as (C1 & C2 & _).
    split; [apply He|]. split; [apply Hn|]. split; [apply Hm|]. exists k. change (width V4) with 32 in Hk.
    assert (Hb : forall i, i < 128 -> N.testbit (value (subnet_mask (six pre n))) i = if i <? 32 then N.testbit (value (subnet_mask n)) i else true)
      by (apply emb_mask_bit; [apply Wn|apply Hn]).
    split; [change (width V6) with 128; lia|]. split; [rewrite Hb, (proj2 (N.ltb_lt k 32) Hk) by lia; assumption|].
    split; [intros i Hi; rewrite Hb, (proj2 (N.ltb_lt i 32) (N.lt_trans _ _ _ Hi Hk)) by lia; now apply El|].
    split; [cbn [six subnet_mask]; now rewrite Em|]. split; [cbn [six base_addr]; now rewrite Eb|].
    rewrite A1, A2, B2, C1, Vm, Vb. lia.
  Qed.
  Lemma halves_six d n m : wf_net n -> wf_net m -> halves d (six pre n) (six pre m) -> exists e, halves e n m /\ d = six pre e.
  Proof.
    intros Wn Wm (Wd & Wn' & Wm' & k & Hk & Ek & El & Em & Eb & Vm & Vb).
    destruct (six_values n Wn) as (B1 & B2 & B3 & B4). destruct (six_values m Wm) as (C1 & C2 & C3 & C4).
    pose proof (six_emb (R := R) pre Hp n Wn) as Hn.
    assert (Hb : forall i, i < 128 -> N.testbit (value (subnet_mask (six pre n))) i = if i <? 32 then N.testbit (value (subnet_mask n)) i else true)
      by (apply emb_mask_bit; [apply Wn|apply Hn]).
    rewrite <- Eb in Vb. rewrite B1, C1 in Vb. rewrite B2 in Vm. change (width V6) with 128 in Hk.
    assert (Lk : k < 32).
    { apply N.nle_gt. intros C. pose proof (N.pow_le_mono_r 2 32 k ltac:(discriminate) C) as L. lia. }
    assert (Ek4 : N.testbit (value (subnet_mask n)) k = true) by (rewrite <- Ek, Hb, (proj2 (N.ltb_lt k 32) Lk) by assumption; reflexivity).
    assert (El4 : forall i, i < k -> N.testbit (value (subnet_mask n)) i = false).
    { intros i Hi. rewrite <- (El i Hi), Hb by lia. now rewrite (proj2 (N.ltb_lt i 32)) by lia. }
    assert (Lm : 2 ^ k <= value (subnet_mask n)).
    { apply N.nlt_ge. intros C. rewrite (testbit_high _ k k C) in Ek4 by lia. discriminate. }
    destruct (back (R := R) pre Hp d Wd) as (e & We & He).
    - rewrite <- Eb, B1. now apply wide_div.
    - symmetry. apply (N.div_unique _ _ _ (value (subnet_mask n) - 2 ^ k)); [lia|]. revert Vm Lm B4. clear. generalize (2 ^ k). intros; nums; lia.
    - exists e. apply (emb_six (R := R) pre Hp e d We) in He. split; [|assumption]. subst d.
      destruct (six_values e We) as (A1 & A2 & A3 & A4). rewrite A2 in Vm.
      split; [assumption|]. split; [assumption|]. split; [assumption|]. exists k. split; [exact Lk|]. split; [assumption|]. split; [assumption|].
      rewrite <- Eb, B1 in A1. split.
      + apply (value_inj (R := R)); [apply Wm|apply Wn|]. apply (f_equal value) in Em. rewrite B2, C2 in Em. lia.
      + split; [apply (value_inj (R := R)); [apply Wn|apply We|lia]|]. split; lia.
  Qed.

  Lemma six_outermost l o : Forall wf_net l -> outermost l o -> outermost (map (six pre) l) (map (six pre) o).
  Proof.
    intros W Ho. pose proof W as W0. rewrite Forall_forall in W0. intros n'. split.
    - intros C. apply in_map_iff in C. destruct C as (n & <- & Hn). apply Ho in Hn. destruct Hn as [Hn Hi]. split; [now apply in_map|].
      intros m' Hm' Hi'. apply in_map_iff in Hm'. destruct Hm' as (m & <- & Hm). f_equal. apply Hi; [assumption|].
      apply six_includes in Hi'; [assumption|now apply W0..].
    - intros [C Hi]. apply in_map_iff in C. destruct C as (n & <- & Hn). apply in_map, Ho. split; [assumption|]. intros m Hm Hi'.
      apply six_inj; [now apply W0..|]. apply Hi; [now apply in_map|]. apply six_includes; [now apply W0..|assumption].
  Qed.

  Lemma six_joined l r : joined l r -> Forall wf_net l -> joined (map (six pre) l) (map (six pre) r).
  Proof.
    induction 1 as [l r Hn Hin S|l r e n m l' Hn Hm Hh Hf Hl' Hj IH]; intros W; pose proof W as W0; rewrite Forall_forall in W0.
    - apply joined_done.
      + intros d n' m' C D Hh. apply in_map_iff in C. destruct C as (n & <- & C). apply in_map_iff in D. destruct D as (m & <- & D).
        destruct (halves_six d n m (W0 n C) (W0 m D) Hh) as (e & He & _). exact (Hn e n m C D He).
      + intros n'. split; intros C; apply in_map_iff in C; destruct C as (n & <- & C); apply in_map; now apply Hin.
      + assert (Wr : Forall wf_net r) by (apply Forall_forall; intros n C; apply W0; now apply Hin).
        clear -S Wr Hp R. induction S as [|n r S IH Hf]; cbn [map]; constructor; inversion Wr as [|? ? W1 W2]; subst.
        * now apply IH.
        * apply Forall_map. rewrite Forall_forall in *. intros m Hm. apply six_before; [assumption|now apply W2|now apply Hf].
    - pose proof Hh as (We & Wn & Wm & _).
      assert (Wl' : Forall wf_net l').
      { apply Forall_forall. intros x Hx. apply Hl' in Hx. destruct Hx as [->|[Hx _]]; [assumption|now apply W0]. }
      apply (joined_step _ _ (six pre e) (six pre n) (six pre m) (map (six pre) l')).
      + now apply in_map.
      + now apply in_map.
      + now apply six_halves.
      + intros d n1 m1 C D Hh1. apply in_map_iff in C. destruct C as (n2 & <- & C). apply in_map_iff in D. destruct D as (m2 & <- & D).
        destruct (halves_six d n2 m2 (W0 n2 C) (W0 m2 D) Hh1) as (e2 & He2 & _). destruct (Hf e2 n2 m2 C D He2) as [->|Hb]; [now left|right].
        apply six_before; [assumption|now apply W0|assumption].
      + intros x. split.
        * intros C. apply in_map_iff in C. destruct C as (y & <- & C). apply Hl' in C. destruct C as [->|(C & N1 & N2)]; [now left|right].
          split; [now apply in_map|]. split; intros E; [apply N1|apply N2]; apply six_inj; try assumption; now apply W0.
        * intros [->|(C & N1 & N2)].
          -- apply in_map, Hl'. now left.
          -- apply in_map_iff in C. destruct C as (y & <- & C). apply in_map, Hl'. right. split; [assumption|].
             split; intros ->; [now apply N1|now apply N2].
      + now apply IH.
  Qed.
End Joined.

Lemma c82_minimize : forall (R : Rust) (pre : N) (l r : list (net V4)) (l' : list (net V6)),
  pre < 2 ^ 96 -> Forall wf_net l -> Forall2 (embedded pre) l l' -> minimize_subnets l = Ret r ->
  exists r', minimize_subnets l' = Ret r' /\ Forall2 (embedded pre) r r'.
Proof.
  intros R pre l r l' Hp W H E. apply (emb_list (R := R) pre Hp l l' W) in H. subst l'.
  destruct (proj1 (c78_exact R V4 l r W) E) as (o & Ho & Hj).
  assert (Wo : Forall wf_net o) by (apply Forall_forall; intros n Hn; apply Ho in Hn; rewrite Forall_forall in W; now apply W).
  assert (Wr : Forall wf_net r) by (destruct (c40_returns R V4 l W) as (r0 & E0 & Wr); pose proof (eq_trans (eq_sym E) E0) as Ee; injection Ee as <-; exact Wr).
  exists (map (six pre) r). split; [|now apply (emb_list (R := R) pre Hp r _ Wr)].
  apply (c78_exact R V6 (map (six pre) l)).
  - apply Forall_map. eapply Forall_impl; [|exact W]. intros n Hn. now apply (six_emb (R := R) pre Hp n Hn).
  - exists (map (six pre) o). split; [now apply (six_outermost (R := R))|now apply (six_joined (R := R))].
Qed.

(** *** Resizing *)
Lemma select_ones {T} k (U : list T) M A : List.length U = k ->
  select (repeat true k ++ M) (U ++ A) = U ++ select M A /\ reject (repeat true k ++ M) (U ++ A) = reject M A.
Proof.
  revert k. induction U as [|x U IH]; intros k E; subst k; cbn [List.length repeat app]; [split; reflexivity|].
  destruct (IH _ eq_refl) as [I1 I2]. unfold select, reject in *. cbn [combine filter fst map snd negb]. now rewrite I1, I2.
Qed.
Lemma select_length {T} M : forall (A : list T), List.length A = List.length M ->
  (List.length (select M A) + List.length (reject M A) = List.length M)%nat.
Proof.
  unfold select, reject. induction M as [|b M IH]; intros [|x A] E; try discriminate; [reflexivity|]. cbn [List.length] in E. injection E as E.
  specialize (IH A E). rewrite !map_length in *. cbn [combine filter fst]. destruct b; cbn [negb List.length]; lia.
Qed.
Lemma wide_bits u x : x < Q -> nbits 128 (u * Q + x) = nbits 96 u ++ nbits 32 x.
Proof.
  intros H. change 128%nat with (96 + 32)%nat. rewrite nbits_app. change (N.of_nat 32) with 32. destruct (wide_div u x H) as [-> E]. f_equal.
  rewrite <- (nbits_mod 32 (u * Q + x) 32) by reflexivity. now rewrite E.
Qed.
Lemma host_bits_wide (m : addr V4) m' : valid m -> embedded_addr (2 ^ 96 - 1) m m' -> host_bits m' = host_bits m.
Proof.
  intros Vm [_ E]. unfold host_bits, zeros. rewrite E. change (N.to_nat (width V6)) with 128%nat. change (N.to_nat (width V4)) with 32%nat.
  rewrite wide_bits by exact Vm. rewrite filter_app, app_length. reflexivity.
Qed.
Lemma position_wide u (m a : addr V4) (m' a' : addr V6) : valid m -> valid a -> u < 2 ^ 96 ->
  embedded_addr (2 ^ 96 - 1) m m' -> embedded_addr u a a' -> position m' a' = u * Q + position m a.
Proof.
  intros Vm Va Hu [_ Em] [_ Ea]. unfold position, abits. rewrite Em, Ea.
  change (N.to_nat (width V6)) with 128%nat. change (N.to_nat (width V4)) with 32%nat.
  rewrite !wide_bits by assumption. change (nbits 96 (2 ^ 96 - 1)) with (repeat true 96).
  destruct (select_ones 96 (nbits 96 u) (nbits 32 (value m)) (nbits 32 (value a)) (nbits_length 96 u)) as [-> ->].
  rewrite <- app_assoc, !bits_number_bval, bval_app, app_length.
  rewrite select_length by (now rewrite !nbits_length). rewrite nbits_length, bval_nbits by exact Hu. reflexivity.
Qed.
Lemma position_lt `{R : Rust} {F} (m a : addr F) : valid m -> valid a -> position m a < 2 ^ width F.
Proof. intros Vm Va. rewrite position_rk by assumption. rewrite width_W. apply rk_lt. Qed.
Lemma position_base `{R : Rust} {F} (n : net F) : wf_net n -> position (subnet_mask n) (base_addr n) + 2 ^ host_bits (subnet_mask n) <= 2 ^ width F /\
  host_bits (subnet_mask n) <= width F.
Proof.
  intros W. pose proof (proj1 (wf_okN n) W) as O. rewrite (position_rk _ _ (wf_mask n W) (wf_base n W)), (rk_base n O), (host_bits_hf _ (wf_mask n W)), width_W.
  pose proof (nv_lt (subnet_mask n) (base_addr n)) as L. unfold size. rewrite (pow_W (subnet_mask n)). split.
  - assert ((nv (subnet_mask n) (base_addr n) + 1) * 2 ^ N.of_nat (hf (subnet_mask n)) <= 2 ^ N.of_nat (kt (subnet_mask n)) * 2 ^ N.of_nat (hf (subnet_mask n))) by (apply N.mul_le_mono_r; lia). lia.
  - pose proof (kt_hf (subnet_mask n)). lia.
Qed.
Lemma same_position `{R : Rust} {F} (n n' : net F) : wf_net n -> wf_net n' -> subnet_mask n' = subnet_mask n ->
  position (subnet_mask n) (base_addr n') = position (subnet_mask n) (base_addr n) -> n' = n.
Proof.
  intros W W' Em E. rewrite !position_rk in E by (apply W || apply W'). apply host_in_place; [now apply wf_okN..|assumption|assumption].
Qed.

Lemma c82_resize : forall (R : Rust) (pre : N) (n : net V4) (n' : net V6) (m : addr V4) (m' : addr V6) (l : list (net V4)) (o : comparison),
  pre < 2 ^ 96 -> wf_net n -> valid m -> embedded pre n n' -> embedded_addr (2 ^ 96 - 1) m m' ->
  resize_network n m = Ret (l, o) ->
  exists l', resize_network n' m' = Ret (l', o) /\ Forall2 (embedded pre) l l'.
Proof.
  intros R pre n n' m m' l o Hp W Vm H Hm E. pose proof (proj1 H) as W'. pose proof (proj1 Hm) as Vm'.
  destruct H as (_ & Hb & Hk). pose proof (conj W' (conj Hb Hk)) as H. fold (embedded pre n n') in H.
  pose proof (host_bits_wide m m' Vm Hm) as Eh. pose proof (host_bits_wide _ _ (wf_mask n W) Hk) as En.
  pose proof (position_wide pre _ _ _ _ (wf_mask n W) (wf_base n W) Hp Hk Hb) as Ep.
  destruct (position_base n W) as [Lp Lh].
  assert (Hs : forall e, wf_net e -> subnet_mask e = m -> wf_net (six pre e) /\ subnet_mask (six pre e) = m' /\
    position m' (base_addr (six pre e)) = pre * Q + position m (base_addr e)).
  { intros e We Ee. pose proof (six_emb (R := R) pre Hp e We) as (W6 & B6 & M6). split; [assumption|]. split.
    - apply (value_inj (R := R)); [apply M6|assumption|]. destruct M6 as [_ M6]. destruct Hm as [_ Hm]. rewrite M6, Hm, Ee. reflexivity.
    - apply position_wide; [assumption|apply We|assumption..]. }
  assert (H1 : forall e e', wf_net e -> subnet_mask e = m -> wf_net e' -> subnet_mask e' = m' -> position m' (base_addr e') = pre * Q + position m (base_addr e) -> embedded pre e e').
  { intros e e' We Ee We' Ee' Pe. destruct (Hs e We Ee) as (W6 & M6 & P6). replace e' with (six pre e); [now apply (six_emb (R := R))|].
    apply (same_position (R := R)); [assumption..|congruence|]. rewrite Ee'. congruence. }
  destruct (N.lt_trichotomy (host_bits (subnet_mask n)) (host_bits m)) as [C|[C|C]].
  - destruct (c52_supernet R V4 n m W Vm C) as (e & E0 & We & Ee & Pe). pose proof (eq_trans (eq_sym E) E0) as Eq0. injection Eq0 as -> ->.
    destruct (c52_supernet R V6 n' m' W' Vm') as (e' & E0' & We' & Ee' & Pe'); [now rewrite Eh, En|].
    exists [e']. split; [exact E0'|]. constructor; [|constructor]. apply H1; try assumption. rewrite Pe', Ep, Eh, Pe.
    assert (Lm : host_bits m <= 32).
    { destruct (position_base e We) as [_ L]. now rewrite Ee in L. }
    assert (Q0 : (pre * Q) mod 2 ^ host_bits m = 0).
    { apply (mod_pow_le _ _ 32 Lm). now apply N.mod_mul. }
    pose proof (pow2_pos (host_bits m)) as Hpos.
    rewrite N.add_mod, Q0, N.add_0_l, N.mod_mod by lia.
    pose proof (N.mod_le (position (subnet_mask n) (base_addr n)) (2 ^ host_bits m) ltac:(lia)). lia.
  - destruct (c54_same_size R V4 n m W Vm (eq_sym C)) as (e & E0 & We & Ee & Pe). pose proof (eq_trans (eq_sym E) E0) as Eq0. injection Eq0 as -> ->.
    destruct (c54_same_size R V6 n' m' W' Vm') as (e' & E0' & We' & Ee' & Pe'); [rewrite Eh, En; now symmetry|].
    exists [e']. split; [exact E0'|]. constructor; [|constructor]. apply H1; try assumption. rewrite Pe', Ep, Pe. reflexivity.
  - destruct (c53_subnets R V4 n m W Vm C) as (l0 & E0 & _ & Hl & Hc & S). pose proof (eq_trans (eq_sym E) E0) as Eq0. injection Eq0 as <- ->.
    destruct (c53_subnets R V6 n' m' W' Vm') as (l' & E0' & _ & Hl' & Hc' & S'); [now rewrite Eh, En|].
    exists l'. split; [exact E0'|]. rewrite Ep, En in Hc'.
    assert (Wl : Forall wf_net l) by (eapply Forall_impl; [|exact Hl]; intros e He; apply He).
    apply (emb_list (R := R) pre Hp l l' Wl).
    assert (Hl6 : Forall (fun e => wf_net e /\ subnet_mask e = m') (map (six pre) l)).
    { apply Forall_map. eapply Forall_impl; [|exact Hl]. intros e [We Ee]. destruct (Hs e We Ee) as (A1 & A2 & _). now split. }
    assert (Cov : forall c, valid c -> (covered (map (six pre) l) c <-> covered l' c)).
    { intros c' V'. etransitivity; [|symmetry; exact (Hc' c' V')]. split.
      - intros (e' & He & Mc). apply in_map_iff in He. destruct He as (e & <- & He). rewrite Forall_forall in Wl.
        destruct (em_from (R := R) pre Hp e _ (Wl e He) (six_emb (R := R) pre Hp e (Wl e He)) c' V' Mc) as (c & Vc & Md & Ec & _).
        pose proof (proj2 (emb_wide (R := R) pre c c' Hp Vc) Ec) as Em. rewrite (position_wide pre m c m' c' Vm Vc Hp Hm Em).
        pose proof (proj1 (Hc c Vc) (ex_intro _ e (conj He Md))) as K. clear - K. lia.
      - intros K. destruct (narrow (R := R) c' V') as (c & Vc & Hu & Ec). rewrite (position_wide _ m c m' c' Vm Vc Hu Hm Ec) in K.
        pose proof (position_lt (R := R) m c Vm Vc) as Lc. change (width V4) with 32 in *.
        assert (Eu : value c' / Q = pre).
        { clear - K Lc Lp. revert K Lc Lp. generalize (value c' / Q), (position (subnet_mask n) (base_addr n)), (position m c), (2 ^ host_bits (subnet_mask n)).
          intros u x y z. nums. lia. }
        rewrite Eu in *. destruct (proj2 (Hc c Vc)) as (e & He & Mc); [clear - K; lia|].
        exists (six pre e). split; [now apply in_map|]. rewrite Forall_forall in Wl. rewrite (proj1 (emb_wide (R := R) pre c c' Hp Vc) Ec).
        now apply (em_to (R := R) pre Hp e _ (Wl e He) (six_emb (R := R) pre Hp e (Wl e He)) c Vc). }
    apply (strictly_sorted_ext (fun e e' : net V6 => value (base_addr e) < value (base_addr e'))).
    + intros x. apply N.lt_irrefl.
    + intros x y z. apply N.lt_trans.
    + clear - S' . induction S' as [|e l S IH Hf]; constructor; [assumption|]. eapply Forall_impl; [|exact Hf]. intros e' K. apply K.
    + clear - S Wl Hp R. induction S as [|e l S IH Hf]; cbn [map]; constructor; inversion Wl as [|? ? W1 W2]; subst.
      * now apply IH.
      * apply Forall_map. rewrite Forall_forall in *. intros d Hd. rewrite (proj1 (six_values (R := R) pre Hp e W1)), (proj1 (six_values (R := R) pre Hp d (W2 d Hd))).
        destruct (Hf d Hd) as [K _]. lia.
    + intros e. split; apply (same_cover m'); try assumption. intros c Vc. symmetry. now apply Cov.
Qed.

Lemma largest_pos cs : 2 ^ largest cs <= N.max 1 (total cs).
Proof.
  destruct cs as [|c cs]; [reflexivity|]. pose proof (largest_total (c :: cs) ltac:(discriminate)). lia.
Qed.
Lemma run_six {R : Rust} pre (ns : list (net V4)) : pre < 2 ^ 96 -> forall y, run y ns -> run (pre * Q + y) (map (six pre) ns).
Proof.
  intros Hp. induction ns as [|e ns IH]; intros y; cbn [run map]; [trivial|]. intros (p & He & Ey & Hr).
  pose proof (six_emb (R := R) pre Hp e (proj1 He)) as H6. exists (96 + p).
  split; [now apply (prefix_wide pre Hp e (six pre e) p (proj1 He) H6)|]. split; [destruct H6 as (_ & [_ ->] & _); now rewrite Ey|].
  specialize (IH _ Hr). replace (width V6 - (96 + p)) with (width V4 - p) by (change (width V6) with 128; change (width V4) with 32; lia).
  now rewrite <- N.add_assoc.
Qed.

Lemma c82_split : forall (R : Rust) (pre : N) (n : net V4) (n' : net V6) (cs : list Z) (r : list (net V4)),
  pre < 2 ^ 96 -> wf_net n -> embedded pre n n' -> split_subnet n cs = Ret (Some r) ->
  exists r2 r', Forall2 (embedded pre) r r2 /\ split_subnet n' cs = Ret (Some r') /\
    Permutation (combine cs r2) (combine cs r') /\ (NoDup cs -> r2 = r').
Proof.
  intros R pre n n' cs r Hp W H E. pose proof (proj1 H) as W'.
  assert (Hlt : run_start n cs + total cs < 2 ^ width V4) by (apply (c50_succeeds_iff R V4 n cs W); eauto).
  pose proof (largest_pos cs) as Lg.
  assert (L32 : largest cs <= 32).
  { apply N.nlt_ge. intros C. pose proof (N.pow_lt_mono_r 2 32 (largest cs) ltac:(reflexivity) C) as K. nums. lia. }
  assert (Es : run_start n' cs = pre * Q + run_start n cs).
  { unfold run_start. destruct H as (_ & [_ ->] & _). pose proof (pow2_pos (largest cs)) as Hpos.
    assert (Q0 : (pre * Q) mod 2 ^ largest cs = 0) by (apply (mod_pow_le _ _ 32 L32); now apply N.mod_mul).
    rewrite N.add_mod, Q0, N.add_0_l, N.mod_mod by lia.
    pose proof (N.mod_le (value (base_addr n)) (2 ^ largest cs) ltac:(lia)). lia. }
  assert (Hlt' : run_start n' cs + total cs < 2 ^ width V6) by (rewrite Es; clear - Hlt Hp; nums; lia).
  destruct (proj1 (split_parts R V4 n cs W) Hlt) as (r0 & ns & E0 & Pm & Hr & Hc & Hs & Hpx & cc & Sc & Pc & Lc & Hcc).
  pose proof (eq_trans (eq_sym E) E0) as Eq0. injection Eq0 as <-.
  destruct (proj1 (split_parts R V6 n' cs W') Hlt') as (r' & ns' & E' & Pm' & Hr' & Hc' & Hs' & Hpx' & cc' & Sc' & Pc' & Lc' & Hcc').
  rewrite Es in Hr'. apply (run_six pre ns Hp) in Hr.
  assert (Cr : Forall cidr_net r) by (apply (Permutation_Forall (Permutation_sym Pm) Hc)).
  assert (Wr : Forall wf_net r) by (eapply Forall_impl; [|exact Cr]; intros e [p He]; apply He).
  assert (C6 : Forall (fun n => exists p, is_cidr n p) (map (six pre) ns)).
  { apply Forall_map. eapply Forall_impl; [|exact Hc]. intros e [p He]. exists (96 + p).
    now apply (prefix_wide pre Hp e (six pre e) p (proj1 He) (six_emb (R := R) pre Hp e (proj1 He))). }
  assert (En : map (six pre) ns = ns').
  { apply (run_same _ _ _ Hr Hr'). apply pre_prefix; try assumption.
    assert (S6 : StronglySorted N.le (map Pf_Split.pre (map (six pre) ns))).
    { clear - Hs Hc. induction ns as [|e ns IH]; cbn [map]; [constructor|]. cbn [map] in Hs. inversion Hs as [|? ? S1 F1]; inversion Hc as [|? ? [p [_ Ep]] C1]; subst.
      constructor; [now apply IH|]. rewrite Forall_forall in *. intros x Hx. rewrite map_map in Hx. apply in_map_iff in Hx. destruct Hx as (d & <- & Hd).
      specialize (F1 (Pf_Split.pre d) (in_map _ _ _ Hd)). destruct (C1 d Hd) as [q [_ Eq0]].
      unfold Pf_Split.pre in *. unfold six. cbn [cidr_prefix]. rewrite Ep, Eq0 in *. cbn [option_map]. lia. }
    apply sorted_perm_eq; try assumption.
    rewrite <- (Permutation_map Pf_Split.pre Pm'), <- (Permutation_map Pf_Split.pre (Permutation_map (six pre) Pm)).
    replace (map Pf_Split.pre (map (six pre) r)) with (map Pf_Split.pre r'); [reflexivity|].
    transitivity (map (fun o : option N => match o with Some p => p | None => 0 end) (map cidr_prefix r')); [rewrite map_map; reflexivity|].
    transitivity (map (fun o : option N => match option_map (N.add 96) o with Some p => p | None => 0 end) (map cidr_prefix r)); [|rewrite !map_map; reflexivity].
    rewrite Hpx, Hpx', !map_map. apply map_ext_in. intros c Hc0. cbn [option_map]. change (width V6) with 128. change (width V4) with 32.
    pose proof (c46_one_per_request R V4 n cs r W E) as F2. assert (piece c < 32).
    { clear - F2 Hc0. induction F2 as [|c0 e cs r [L _] F2 IH]; [destruct Hc0|]. destruct Hc0 as [->|Hc0]; [exact L|now apply IH]. }
    lia. }
  assert (cc = cc') by (apply desc_perm_eq; [assumption..|]; now rewrite Pc, Pc').
  assert (P : Permutation (combine cs (map (six pre) r)) (combine cs r')).
  { rewrite Hcc'. subst cc' ns'. rewrite !combine_map_r. now apply Permutation_map. }
  exists (map (six pre) r), r'. split; [now apply (emb_list (R := R) pre Hp r)|]. split; [exact E'|]. split; [assumption|]. intros Hnd.
  apply (combine_functional cs); try assumption.
  - apply (f_equal (@List.length _)) in Hpx. rewrite !map_length in *. assumption.
  - apply (f_equal (@List.length _)) in Hpx'. now rewrite !map_length in Hpx'.
Qed.

Lemma c82_split_back_refuted : exists (pre : N) (n : net V4) (n' : net V6) (cs : list Z) (r : list (net V6)),
  pre < 2 ^ 96 /\ wf_net n /\ embedded pre n n' /\
  @split_subnet debug_env (addr V6) (@ipv6_ops debug_env) n' cs = Ret (Some r) /\
  @split_subnet debug_env (addr V4) ipv4_ops n cs = Ret None.
Proof.
  pose (n := @new_with_mask (addr V4) ipv4_ops (ip4 255 255 255 254) (ip4 255 255 255 254)).
  assert (W : wf_net n) by (apply (c17_with_mask debug_env V4); reflexivity).
  exists 0, n, (six 0 n), [0%Z; 0%Z]. eexists. split; [reflexivity|]. split; [exact W|]. split; [now apply (six_emb (R := debug_env))|].
  split; vm_compute; reflexivity.
Qed.
