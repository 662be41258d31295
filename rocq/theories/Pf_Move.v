(** * Pf_Move: proofs for P_Move *)
From Verif Require Import RustBase Addr BitManip Cidr Net Derange Minimize Split Resize Spec SpecCount SpecMove Bits Blocks Laws NetFacts SetFacts Family Order Pf_Net Pf_Minimize Pf_Derange Pf_Split Pf_Resize Pf_Count Demo.
From Coq Require Import ZifyBool ZifyNat ZifyN.
Ltac Zify.zify_post_hook ::= idtac.

Definition cidr_net {F} (n : net F) : Prop := exists p, is_cidr n p.

Lemma member_base {F} (n : net F) : member n (base_addr n).
Proof. intros i _ _. reflexivity. Qed.

Lemma includes_eq (R : Rust) {F} (n n' : net F) : wf_net n -> wf_net n' -> includes n n' -> includes n' n -> n = n'.
Proof. intros Hn Hn' H H'. apply (c21_extensionality R F n n' Hn Hn'). intros a Va. split; auto. Qed.

Lemma sorted_NoDup {F} (r : list (net F)) : StronglySorted (fun n n' : net F =>
    value (base_addr n) < value (base_addr n') \/
    value (base_addr n) = value (base_addr n') /\ value (subnet_mask n) < value (subnet_mask n')) r -> NoDup r.
Proof.
  intros S. induction S as [|n r S IH Hf]; constructor; [|assumption].
  intros C. rewrite Forall_forall in Hf. specialize (Hf n C). lia.
Qed.

Lemma derange_perm `{R : Rust} {F} (a b : addr F) l : valid a -> valid b -> range_to_subnets a b = Ret l ->
  exists r, minimize_subnets l = Ret r /\ Permutation l r.
Proof.
  intros Ha Hb E. destruct (derange_disjoint a b l Ha Hb E) as (_ & Hl & _ & Hc).
  destruct (c40_returns R F l (cidr_wf_list l Hl)) as (r & Er & _). exists r. split; [assumption|].
  destruct (min_disjoint l r Hl Er) as (Hr & _ & Hcr).
  apply (c36_unique R F a b l r Ha Hb E Hr).
  - intros c Vc. rewrite <- (Hc c Vc). symmetry. now apply Hcr.
  - apply (c39_not_longer R F l r); [now apply cidr_wf_list|assumption].
Qed.

(** *** Taking networks from one address space to another *)
Section Transport.
  Context {R : Rust} {F F' : family} (phi : addr F -> addr F') (T : net F -> net F' -> Prop).
  Context (phi_ok : forall a, valid a -> valid (phi a))
    (phi_inj : forall a b, valid a -> valid b -> phi a = phi b -> a = b)
    (T_mem : forall n n', T n n' -> forall c', valid c' -> (member n' c' <-> exists c, valid c /\ phi c = c' /\ member n c))
    (T_cidr : forall n n', T n n' -> cidr_net n -> cidr_net n')
    (T_ex : forall n, cidr_net n -> exists n', T n n')
    (T_back : forall n', cidr_net n' -> (forall c', valid c' -> member n' c' -> exists c, valid c /\ phi c = c') ->
       exists m, cidr_net m /\ T m n').

  Lemma T_phi n n' c : T n n' -> valid c -> (member n' (phi c) <-> member n c).
  Proof.
    intros H Vc. rewrite (T_mem n n' H) by auto. split.
    - intros (c0 & V0 & E & Hm). apply phi_inj in E; [now subst|assumption..].
    - intros Hm. now exists c.
  Qed.
  Lemma T_includes n n' m m' : T n n' -> T m m' -> (includes n m <-> includes n' m').
  Proof.
    intros Hn Hm. split; intros H c Vc Hc.
    - apply (T_mem m m' Hm c Vc) in Hc. destruct Hc as (c0 & V0 & <- & Hc). apply (T_phi n n' c0 Hn V0). now apply H.
    - apply (T_phi n n' c Hn Vc). apply H; [auto|]. now apply (T_phi m m' c Hm Vc).
  Qed.
  Lemma T_fun n m m' : wf_net m -> wf_net m' -> T n m -> T n m' -> m = m'.
  Proof.
    intros Hm Hm' H H'. assert (I : includes n n) by (intros c _ Hc; exact Hc).
    apply (includes_eq R); try assumption; [now apply (T_includes n m n m')|now apply (T_includes n m' n m)].
  Qed.
  Lemma T_inj n n' m : wf_net n -> wf_net n' -> T n m -> T n' m -> n = n'.
  Proof.
    intros Hn Hn' H H'. assert (I : includes m m) by (intros c _ Hc; exact Hc).
    apply (includes_eq R); try assumption; [now apply (T_includes n m n' m)|now apply (T_includes n' m n m)].
  Qed.
  Lemma T_covered l l' c' : Forall2 T l l' -> valid c' -> (covered l' c' <-> exists c, valid c /\ phi c = c' /\ covered l c).
  Proof.
    intros H Vc. unfold covered. induction H as [|n n' l l' Hn H IH].
    - split; [intros (n & [] & _)|intros (c & _ & _ & n & [] & _)].
    - split.
      + intros (m & [<-|Hm] & Hc).
        * apply (T_mem n n' Hn c' Vc) in Hc. destruct Hc as (c & V & E & Hc). exists c. split; [assumption|]. split; [assumption|]. exists n. cbn. auto.
        * destruct (proj1 IH) as (c & V & E & m2 & Hm2 & Hc2); [now exists m|]. exists c. split; [assumption|]. split; [assumption|]. exists m2. cbn. auto.
      + intros (c & V & E & m & [<-|Hm] & Hc).
        * exists n'. split; [now left|]. apply (T_mem n n' Hn c' Vc). now exists c.
        * destruct (proj2 IH) as (m2 & Hm2 & Hc2); [exists c; split; [assumption|]; split; [assumption|]; now exists m|]. exists m2. cbn. auto.
  Qed.
  Lemma T_list l : Forall cidr_net l -> exists l', Forall2 T l l'.
  Proof.
    induction 1 as [|n l Hn _ [l' IH]]; [now exists []|]. destruct (T_ex n Hn) as [n' H]. exists (n' :: l'). now constructor.
  Qed.
  Lemma T_cidr_list l l' : Forall2 T l l' -> Forall cidr_net l -> Forall cidr_net l'.
  Proof.
    induction 1 as [|n n' l l' Hn _ IH]; intros Hl; inversion Hl; subst; constructor; [now apply (T_cidr n)|auto].
  Qed.
  Lemma T_in l l' : Forall2 T l l' -> (forall n, In n l -> exists n', In n' l' /\ T n n') /\ forall n', In n' l' -> exists n, In n l /\ T n n'.
  Proof.
    induction 1 as [|n n' l l' Hn _ [IH1 IH2]]; [split; intros ? []|]. split.
    - intros m [<-|Hm]; [exists n'; cbn; auto|]. destruct (IH1 m Hm) as (m' & ? & ?). exists m'. cbn. auto.
    - intros m [<-|Hm]; [exists n; cbn; auto|]. destruct (IH2 m Hm) as (m' & ? & ?). exists m'. cbn. auto.
  Qed.

  Lemma T_NoDup l l' : Forall2 T l l' -> Forall wf_net l -> NoDup l -> NoDup l'.
  Proof.
    induction 1 as [|n n' l l' Hn H IH]; intros Hw Hnd; [constructor|]. inversion Hw as [|? ? Wn Hw']; inversion Hnd as [|? ? Hni Hnd']; subst.
    constructor; [|now apply IH]. intros C. destruct (proj2 (T_in l l' H) n' C) as (m & Hm & Tm).
    rewrite Forall_forall in Hw'. apply Hni. now rewrite (T_inj n m n' Wn (Hw' m Hm) Hn Tm).
  Qed.

  Lemma T_canonical l l' r r' : Forall cidr_net l -> Forall cidr_net l' ->
    (forall c', valid c' -> (covered l' c' <-> exists c, valid c /\ phi c = c' /\ covered l c)) ->
    minimize_subnets l = Ret r -> minimize_subnets l' = Ret r' ->
    exists r2, Forall2 T r r2 /\ Permutation r2 r'.
  Proof.
    intros Hl Hl' HT E E'.
    destruct (min_disjoint l r Hl E) as (Hr & _ & Hc). destruct (min_disjoint l' r' Hl' E') as (Hr' & _ & Hc').
    pose proof (cidr_wf_list l Hl) as Wl. pose proof (cidr_wf_list l' Hl') as Wl'.
    pose proof (cidr_wf_list r Hr) as Wr. pose proof (cidr_wf_list r' Hr') as Wr'.
    destruct (T_list r Hr) as [r2 H2]. exists r2. split; [assumption|].
    pose proof (T_cidr_list r r2 H2 Hr) as Hr2. pose proof (cidr_wf_list r2 Hr2) as Wr2.
    destruct (T_in r r2 H2) as [In1 In2].
    assert (Irr : forall n m, In n r -> In m r -> includes n m -> n = m).
    { intros n m Hn Hm Hi. apply (c41_irredundant R F l r Hl E n m Hn Hm). exists (base_addr m).
      rewrite Forall_forall in Wr. pose proof (wf_base m (Wr m Hm)) as Vm. split; [assumption|]. split; [|apply member_base].
      apply Hi; [assumption|apply member_base]. }
    assert (Irr' : forall n m, In n r' -> In m r' -> includes n m -> n = m).
    { intros n m Hn Hm Hi. apply (c41_irredundant R F' l' r' Hl' E' n m Hn Hm). exists (base_addr m).
      rewrite Forall_forall in Wr'. pose proof (wf_base m (Wr' m Hm)) as Vm. split; [assumption|]. split; [|apply member_base].
      apply Hi; [assumption|apply member_base]. }
    assert (Up : forall n2, In n2 r2 -> exists e', In e' r' /\ includes e' n2).
    { intros n2 Hn2. destruct (In2 n2 Hn2) as (n & Hn & Tn). rewrite Forall_forall in Hr2. destruct (Hr2 n2 Hn2) as [p Hp].
      apply (c42_in_one R F' l' r' n2 p Hl' E' Hp). intros c' Vc' Hm. apply (T_mem n n2 Tn c' Vc') in Hm.
      destruct Hm as (c & Vc & Ec & Hm). apply (HT c' Vc'). exists c. split; [assumption|]. split; [assumption|].
      apply (Hc c Vc). now exists n. }
    assert (Down : forall e', In e' r' -> exists n2, In n2 r2 /\ includes n2 e').
    { intros e' He'. rewrite Forall_forall in Hr'. pose proof (Hr' e' He') as Ce'.
      assert (Hin : forall c', valid c' -> member e' c' -> exists c, valid c /\ phi c = c' /\ covered l c).
      { intros c' Vc' Hm. apply (HT c' Vc'). apply Hc'; [assumption|]. now exists e'. }
      destruct (T_back e' Ce') as (e & Ce & Te).
      { intros c' Vc' Hm. destruct (Hin c' Vc' Hm) as (c & Vc & Ec & _). now exists c. }
      destruct Ce as [p Hp]. destruct (c42_in_one R F l r e p Hl E Hp) as (n & Hn & Hi).
      { intros c Vc Hm. destruct (Hin (phi c)) as (c0 & V0 & E0 & Hc0); [auto|now apply (T_phi e e')|].
        apply phi_inj in E0; [now subst|assumption..]. }
      destruct (In1 n Hn) as (n2 & Hn2 & Tn). exists n2. split; [assumption|]. now apply (T_includes n n2 e e' Tn Te). }
    rewrite Forall_forall in Wr2, Wr'.
    apply NoDup_Permutation.
    - apply (T_NoDup r r2 H2 Wr). apply sorted_NoDup. now apply (c44_sorted R F l r).
    - apply sorted_NoDup. now apply (c44_sorted R F' l' r').
    - intros x. split; intros Hx.
      + destruct (Up x Hx) as (e' & He' & Hi). destruct (Down e' He') as (x2 & Hx2 & Hi2).
        destruct (In2 x Hx) as (n & Hn & Tn). destruct (In2 x2 Hx2) as (n2 & Hn2 & Tn2).
        assert (n2 = n). { apply Irr; [assumption..|]. apply (T_includes n2 x2 n x Tn2 Tn). intros c Vc Hm. auto. }
        subst n2. assert (x2 = x) by (apply (T_fun n); auto). subst x2.
        rewrite (includes_eq R x e'); auto.
      + destruct (Down x Hx) as (n2 & Hn2 & Hi). destruct (Up n2 Hn2) as (e' & He' & Hi').
        assert (e' = x). { apply Irr'; [assumption..|]. intros c Vc Hm. auto. }
        subst e'. rewrite (includes_eq R x n2); auto.
  Qed.

  Lemma T_minimize l l' r r' : Forall cidr_net l -> Forall2 T l l' ->
    minimize_subnets l = Ret r -> minimize_subnets l' = Ret r' ->
    exists r2, Forall2 T r r2 /\ Permutation r2 r'.
  Proof.
    intros Hl HT. apply T_canonical; [assumption|now apply (T_cidr_list l)|]. intros c' Vc'. now apply T_covered.
  Qed.

  Lemma T_derange a b a' b' l l' : valid a -> valid b -> valid a' -> valid b' ->
    (forall c', valid c' -> (N.min (value a') (value b') <= value c' <= N.max (value a') (value b') <->
       exists c, valid c /\ phi c = c' /\ N.min (value a) (value b) <= value c <= N.max (value a) (value b))) ->
    range_to_subnets a b = Ret l -> range_to_subnets a' b' = Ret l' ->
    exists l2, Forall2 T l l2 /\ Permutation l2 l'.
  Proof.
    intros Va Vb Va' Vb' H E E'.
    destruct (derange_disjoint a b l Va Vb E) as (_ & Hl & _ & Hc).
    destruct (derange_disjoint a' b' l' Va' Vb' E') as (_ & Hl' & _ & Hc').
    destruct (derange_perm a b l Va Vb E) as (r & Er & P). destruct (derange_perm a' b' l' Va' Vb' E') as (r' & Er' & P').
    destruct (T_canonical l l' r r' Hl Hl') as (r2 & H2 & P2); [|assumption..|].
    - intros c' Vc'. rewrite (Hc' c' Vc'), (H c' Vc'). split; intros (c & Vc & Ec & Hm); exists c; (split; [assumption|]); (split; [assumption|]); now apply Hc.
    - destruct (Permutation_Forall2 (Permutation_sym P) H2) as (l2 & P3 & H3). exists l2. split; [assumption|].
      etransitivity; [apply Permutation_sym; exact P3|]. etransitivity; [exact P2|]. now apply Permutation_sym.
  Qed.
End Transport.

(** *** Flipping bits *)
Section Flip.
  Context {R : Rust} {F : family} (x : N) (Hx : x < 2 ^ width F).
  Implicit Types (n : net F) (a c : addr F).
  Definition flip (a : addr F) : addr F := of_n F (N.lxor (value a) x).

  Lemma flip_lt a : valid a -> N.lxor (value a) x < 2 ^ width F.
  Proof. intros Va. apply lxor_lt; [now apply value_lt|assumption]. Qed.
  Lemma flip_ok a : valid a -> valid (flip a).
  Proof. intros Va. now apply of_n_spec, flip_lt. Qed.
  Lemma flip_value a : valid a -> value (flip a) = N.lxor (value a) x.
  Proof. intros Va. now apply of_n_spec, flip_lt. Qed.
  Lemma lxor_twice y : N.lxor (N.lxor y x) x = y.
  Proof. now rewrite N.lxor_assoc, N.lxor_nilpotent, N.lxor_0_r. Qed.
  Lemma flip_flip a : valid a -> flip (flip a) = a.
  Proof.
    intros Va. apply value_inj; [now apply flip_ok, flip_ok|assumption|].
    rewrite !flip_value, lxor_twice by (try apply flip_ok; assumption). reflexivity.
  Qed.
  Lemma flip_inj a b : valid a -> valid b -> flip a = flip b -> a = b.
  Proof. intros Va Vb E. rewrite <- (flip_flip a Va), <- (flip_flip b Vb). now f_equal. Qed.

  Lemma moved_mem n n' : moved x n n' -> forall c', valid c' -> (member n' c' <-> exists c, valid c /\ flip c = c' /\ member n c).
  Proof.
    intros (W & Em & H) c' Vc'. split.
    - intros Hm. exists (flip c'). split; [now apply flip_ok|]. split; [now apply flip_flip|].
      apply (H (flip c') c'); [now apply flip_ok|assumption| |assumption]. now rewrite flip_value, lxor_twice.
    - intros (c & Vc & <- & Hm). apply (H c); [assumption..|now apply flip_value|assumption].
  Qed.
  Lemma mem_moved n n' : wf_net n' -> subnet_mask n' = subnet_mask n ->
    (forall c, valid c -> (member n' (flip c) <-> member n c)) -> moved x n n'.
  Proof.
    intros W Em H. split; [assumption|]. split; [assumption|]. intros a a' Va Va' E.
    replace a' with (flip a); [symmetry; auto|]. apply value_inj; [now apply flip_ok|assumption|]. now rewrite flip_value.
  Qed.
  Lemma moved_cidr n n' : moved x n n' -> cidr_net n -> cidr_net n'.
  Proof.
    intros (W & Em & _) [p [Wn Hp]]. exists p. split; [assumption|]. apply (wf_prefix n' W). rewrite Em. now apply (wf_prefix n Wn).
  Qed.
  Lemma moved_prefix n n' p : moved x n n' -> is_cidr n p -> is_cidr n' p.
  Proof. intros (W & Em & _) [Wn Hp]. split; [assumption|]. apply (wf_prefix n' W). rewrite Em. now apply (wf_prefix n Wn). Qed.

  Lemma moved_exists n : wf_net n -> exists n', moved x n n'.
  Proof.
    intros W. exists (new_with_mask (flip (base_addr n)) (subnet_mask n)).
    destruct (c17_with_mask R F (flip (base_addr n)) (subnet_mask n)) as (W' & Hm & Em & Eb); [apply flip_ok, W|apply W|].
    apply mem_moved; [assumption..|]. intros c Vc. unfold member in *.
    assert (Q : forall i, i < width F -> N.testbit (value (subnet_mask n)) i = true ->
      N.testbit (value (base_addr (new_with_mask (flip (base_addr n)) (subnet_mask n)))) i = xorb (N.testbit (value (base_addr n)) i) (N.testbit x i)).
    { intros i Hi Ei. rewrite <- (Hm i Hi) by (rewrite Em; assumption). rewrite flip_value, N.lxor_spec by apply W. reflexivity. }
    rewrite Em. split; intros H i Hi Ei; specialize (H i Hi Ei); rewrite (flip_value c Vc), N.lxor_spec, (Q i Hi Ei) in *.
    - now destruct (N.testbit (value c) i), (N.testbit (value (base_addr n)) i), (N.testbit x i).
    - now rewrite H.
  Qed.
  Lemma moved_sym n n' : wf_net n -> moved x n n' -> moved x n' n.
  Proof.
    intros W H. pose proof H as (W' & Em & _). apply mem_moved; [assumption|now symmetry|]. intros c Vc.
    rewrite (moved_mem n n' H c Vc). split.
    - intros Hm. exists (flip c). split; [now apply flip_ok|]. split; [now apply flip_flip|assumption].
    - intros (c0 & V0 & <- & Hm). now rewrite flip_flip.
  Qed.
  Lemma moved_back n' : cidr_net n' -> (forall c', valid c' -> member n' c' -> exists c, valid c /\ flip c = c') ->
    exists m, cidr_net m /\ moved x m n'.
  Proof.
    intros [p Hp] _. destruct (moved_exists n' (proj1 Hp)) as [m Hm]. exists m. split.
    - apply (moved_cidr n'); [assumption|now exists p].
    - apply moved_sym; [apply Hp|assumption].
  Qed.
  Lemma cidr_moved n : cidr_net n -> exists n', moved x n n'.
  Proof. intros [p Hp]. apply moved_exists, Hp. Qed.

  Definition move_fun := T_fun (R := R) flip (moved x) flip_ok flip_inj moved_mem.
  Definition move_minimize := T_minimize (R := R) flip (moved x) flip_ok flip_inj moved_mem moved_cidr cidr_moved moved_back.
  Definition move_derange := T_derange (R := R) flip (moved x) flip_ok flip_inj moved_mem moved_cidr cidr_moved moved_back.
End Flip.

Lemma c81_moved : forall (R : Rust) (F : family) (x : N) (n : net F),
  x < 2 ^ width F -> wf_net n ->
  exists n', moved x n n' /\ moved x n' n /\ forall n'', moved x n n'' -> n'' = n'.
Proof.
  intros R F x n Hx W. destruct (moved_exists (R := R) x Hx n W) as [n' H]. exists n'. split; [assumption|]. split; [now apply (moved_sym (R := R))|].
  intros n'' H'. apply (move_fun (R := R) x Hx n); [apply H'|apply H|assumption..].
Qed.

Lemma c81_minimize : forall (R : Rust) (F : family) (x : N) (l l' r : list (net F)),
  x < 2 ^ width F -> Forall (fun n => exists p, is_cidr n p) l -> Forall2 (moved x) l l' ->
  minimize_subnets l = Ret r ->
  exists r2 r', Forall2 (moved x) r r2 /\ minimize_subnets l' = Ret r' /\ Permutation r2 r'.
Proof.
  intros R F x l l' r Hx Hl H E.
  assert (Wl' : Forall wf_net l') by (clear -H; induction H as [|n n' l l' Hn _ IH]; constructor; [apply Hn|assumption]).
  destruct (c40_returns R F l' Wl') as (r' & E' & _).
  destruct (move_minimize (R := R) x Hx l l' r r' Hl H E E') as (r2 & H2 & P). now exists r2, r'.
Qed.

(** *** Order *)
Lemma lxor_block k c x : x mod 2 ^ k = 0 ->
  N.lxor c x / 2 ^ k = N.lxor (c / 2 ^ k) (x / 2 ^ k) /\ N.lxor c x mod 2 ^ k = c mod 2 ^ k.
Proof.
  intros Hx. rewrite <- !N.shiftr_div_pow2, <- !N.land_ones in *. split; [apply N.shiftr_lxor|].
  apply N.bits_inj. intros i. pose proof (f_equal (fun y => N.testbit y i) Hx) as Hb. cbn beta in Hb.
  rewrite !N.land_spec, N.bits_0 in *. rewrite N.lxor_spec.
  now destruct (N.testbit (N.ones k) i), (N.testbit c i), (N.testbit x i).
Qed.
Lemma block_shift k c d x : x mod 2 ^ k = 0 -> c / 2 ^ k = d / 2 ^ k -> N.lxor c x + d = N.lxor d x + c.
Proof.
  intros Hx E. destruct (lxor_block k c x Hx) as [D M]. destruct (lxor_block k d x Hx) as [D' M'].
  assert (P : 2 ^ k <> 0) by (apply N.pow_nonzero; discriminate).
  pose proof (N.div_mod c (2 ^ k) P) as Ec. pose proof (N.div_mod d (2 ^ k) P) as Ed.
  pose proof (N.div_mod (N.lxor c x) (2 ^ k) P) as Ec'. pose proof (N.div_mod (N.lxor d x) (2 ^ k) P) as Ed'.
  rewrite D, M in Ec'. rewrite D', M' in Ed'. rewrite E in Ec, Ec'.
  clear - Ec Ed Ec' Ed'. revert Ec Ed Ec' Ed'. generalize (2 ^ k * (d / 2 ^ k)) (2 ^ k * N.lxor (d / 2 ^ k) (x / 2 ^ k)) (c mod 2 ^ k) (d mod 2 ^ k) (N.lxor c x) (N.lxor d x).
  intros u w s t y z. lia.
Qed.
Lemma lxor_ones c w : c < 2 ^ w -> N.lxor c (2 ^ w - 1) = 2 ^ w - 1 - c.
Proof.
  intros H. replace (2 ^ w - 1) with (N.ones w) by (rewrite N.ones_equiv; lia).
  change (N.lxor c (N.ones w)) with (N.lnot c w). destruct (N.eq_dec c 0) as [->|Hc].
  - rewrite N.lnot_0_l. lia.
  - apply N.lnot_sub_low. apply N.log2_lt_pow2; lia.
Qed.
Lemma between_block k c lo hi : lo <= c <= hi -> lo / 2 ^ k = hi / 2 ^ k -> c / 2 ^ k = lo / 2 ^ k.
Proof.
  intros [H1 H2] E. assert (P : 2 ^ k <> 0) by (apply N.pow_nonzero; discriminate).
  pose proof (N.div_le_mono _ _ _ P H1). pose proof (N.div_le_mono _ _ _ P H2). lia.
Qed.

Definition follows {F} (n n' : net F) : Prop := wf_net n /\ wf_net n' /\
  forall c d, valid c -> valid d -> member n c -> member n' d -> value c < value d.
Lemma follows_irr {F} (n : net F) : ~ follows n n.
Proof. intros (W & _ & H). specialize (H (base_addr n) (base_addr n) (wf_base n W) (wf_base n W) (member_base n) (member_base n)). lia. Qed.
Lemma follows_trans {F} (n m o : net F) : follows n m -> follows m o -> follows n o.
Proof.
  intros (W & Wm & H) (_ & Wo & H'). split; [assumption|]. split; [assumption|]. intros c d Vc Vd Hc Hd.
  specialize (H c (base_addr m) Vc (wf_base m Wm) Hc (member_base m)).
  specialize (H' (base_addr m) d (wf_base m Wm) Vd (member_base m) Hd). lia.
Qed.
Lemma follows_sorted {F} (l : list (net F)) : Forall cidr_net l ->
  StronglySorted (fun n n' : net F => forall x y, valid x -> valid y -> member n x -> member n' y -> value x < value y) l ->
  StronglySorted follows l.
Proof.
  intros Hl S. induction S as [|n l S IH Hf]; constructor.
  - apply IH. now inversion Hl.
  - inversion Hl as [|? ? [p Hp] Hl']; subst. rewrite Forall_forall in *. intros m Hm. destruct (Hl' m Hm) as [q Hq].
    split; [apply Hp|]. split; [apply Hq|]. now apply Hf.
Qed.
Lemma sorted_image {X Y} (T : X -> Y -> Prop) (Q : X -> X -> Prop) (Q' : Y -> Y -> Prop) l l2 :
  Forall2 T l l2 -> StronglySorted Q l ->
  (forall n m n2 m2, In n l -> In m l -> T n n2 -> T m m2 -> Q n m -> Q' n2 m2) -> StronglySorted Q' l2.
Proof.
  induction 1 as [|n n2 l l2 Hn Hl IH]; intros S H; constructor; inversion S as [|? ? S' Hf]; subst.
  - apply IH; [assumption|]. intros a b a2 b2 Ha Hb. apply H; now right.
  - clear IH S S'. assert (H' : forall m m2, In m l -> T m m2 -> Q n m -> Q' n2 m2) by (intros m m2 Hm Tm; apply H; [now left|now right|assumption..]).
    clear H. induction Hl as [|m m2 l l2 Hm Hl IH]; constructor; inversion Hf as [|? ? Hf1 Hf2]; subst.
    + apply (H' m); [now left|assumption..].
    + apply IH; [assumption|]. intros a a2 Ha. apply H'. now right.
Qed.
Lemma sorted_snoc {X} (Q : X -> X -> Prop) l x : StronglySorted Q l -> Forall (fun y => Q y x) l -> StronglySorted Q (l ++ [x]).
Proof.
  induction 1 as [|y l S IH Hf]; cbn [app]; intros Hx; [constructor; constructor|]. inversion Hx as [|? ? Hy Hx']; subst. constructor; [now apply IH|].
  apply Forall_app. split; [assumption|]. constructor; [assumption|constructor].
Qed.
Lemma sorted_rev {X} (Q : X -> X -> Prop) l : StronglySorted (fun x y => Q y x) l -> StronglySorted Q (rev l).
Proof.
  induction 1 as [|x l S IH Hf]; cbn [rev]; [constructor|]. apply sorted_snoc; [assumption|]. now apply Forall_rev.
Qed.
Lemma follows_same {F} (l l' : list (net F)) : StronglySorted follows l -> StronglySorted follows l' -> Permutation l l' -> l = l'.
Proof.
  intros S S' P. apply (strictly_sorted_ext follows); [apply follows_irr|apply follows_trans|assumption..|].
  intros n. split; intros Hn; [apply (Permutation_in _ P Hn)|apply (Permutation_in _ (Permutation_sym P) Hn)].
Qed.

Lemma derange_sorted `{R : Rust} {F} (a b : addr F) l : valid a -> valid b -> range_to_subnets a b = Ret l ->
  StronglySorted follows l /\
  forall n c, In n l -> valid c -> member n c -> N.min (value a) (value b) <= value c <= N.max (value a) (value b).
Proof.
  intros Ha Hb E. destruct (derange_disjoint a b l Ha Hb E) as (Hlt & Hl & _ & Hc). split.
  - assert (Ht : N.max (value a) (value b) <> 2 ^ width F - 1) by (apply (c37_returns_iff R F a b Ha Hb); eauto).
    destruct (c35_covers_exactly R F a b Ha Hb) as (l' & E' & _ & _ & S); [lia|].
    rewrite E in E'. injection E' as <-. now apply follows_sorted.
  - intros n c Hn Vc Hm. apply Hc; [assumption|]. now exists n.
Qed.

Lemma c81_derange_mirror : forall (R : Rust) (F : family) (a b a' b' : addr F) (l l' : list (net F)),
  valid a -> valid b -> valid a' -> valid b' ->
  value a' = 2 ^ width F - 1 - value a -> value b' = 2 ^ width F - 1 - value b ->
  range_to_subnets a b = Ret l -> range_to_subnets a' b' = Ret l' ->
  Forall2 (moved (2 ^ width F - 1)) l (rev l').
Proof.
  intros R F a b a' b' l l' Va Vb Va' Vb' Ea Eb E E'. set (x := 2 ^ width F - 1) in *.
  pose proof (pow2_pos (width F)) as Hp. assert (Hx : x < 2 ^ width F) by (subst x; lia).
  pose proof (value_lt a Va) as La. pose proof (value_lt b Vb) as Lb.
  assert (Hf : forall c : addr F, valid c -> value (flip x c) = x - value c).
  { intros c Vc. rewrite (flip_value x Hx c Vc). apply lxor_ones. now apply value_lt. }
  destruct (move_derange (R := R) x Hx a b a' b' l l') as (l2 & H2 & P); [assumption..| |assumption|assumption|].
  { intros c' Vc'. pose proof (value_lt c' Vc') as Lc. split.
    - intros H. exists (flip x c'). split; [now apply flip_ok|]. split; [now apply flip_flip|]. rewrite (Hf c' Vc'). subst x. lia.
    - intros (c & Vc & <- & H). rewrite (Hf c Vc). subst x. lia. }
  destruct (derange_sorted a b l Va Vb E) as [S B]. destruct (derange_sorted a' b' l' Va' Vb' E') as [S' B'].
  replace (rev l') with l2; [assumption|]. rewrite <- (rev_involutive l2). f_equal.
  apply follows_same; [|assumption|rewrite <- P; apply Permutation_sym, Permutation_rev]. apply sorted_rev.
  apply (sorted_image (moved x) follows _ l l2 H2 S). intros n m n2 m2 Hn Hm Tn Tm (_ & _ & Q).
  split; [apply Tm|]. split; [apply Tn|]. intros c d Vc Vd Mc Md.
  apply (moved_mem x Hx m m2 Tm c Vc) in Mc. destruct Mc as (c0 & V0 & <- & M0).
  apply (moved_mem x Hx n n2 Tn d Vd) in Md. destruct Md as (d0 & Vd0 & <- & Md0).
  specialize (Q d0 c0 Vd0 V0 Md0 M0). rewrite !Hf by assumption.
  pose proof (value_lt c0 V0) as L0. subst x. lia.
Qed.

Lemma c81_derange_block : forall (R : Rust) (F : family) (k x : N) (a b a' b' : addr F) (l l' : list (net F)),
  valid a -> valid b -> valid a' -> valid b' -> x < 2 ^ width F -> x mod 2 ^ k = 0 ->
  value a / 2 ^ k = value b / 2 ^ k ->
  value a' = N.lxor (value a) x -> value b' = N.lxor (value b) x ->
  range_to_subnets a b = Ret l -> range_to_subnets a' b' = Ret l' ->
  Forall2 (moved x) l l'.
Proof.
  intros R F k x a b a' b' l l' Va Vb Va' Vb' Hx Hk Eab Ea Eb E E'.
  pose proof (block_shift k (value a) (value b) x Hk Eab) as Sab. rewrite <- Ea, <- Eb in Sab.
  assert (Hf : forall c : addr F, valid c -> N.min (value a) (value b) <= value c <= N.max (value a) (value b) ->
    value (flip x c) + value a = value a' + value c).
  { intros c Vc Hc. rewrite (flip_value x Hx c Vc), Ea. apply (block_shift k); [assumption|].
    assert (Q : forall lo hi, lo / 2 ^ k = hi / 2 ^ k -> lo <= value c <= hi -> value c / 2 ^ k = lo / 2 ^ k) by (intros lo hi Q1 Q2; now apply (between_block k _ lo hi)).
    destruct (N.le_ge_cases (value a) (value b)) as [L|L].
    - apply (Q _ (value b)); [assumption|clear - Hc L; lia].
    - rewrite Eab. apply (Q _ (value a)); [now symmetry|clear - Hc L; lia]. }
  assert (Eab' : value a' / 2 ^ k = value b' / 2 ^ k).
  { rewrite Ea, Eb, !(proj1 (lxor_block k _ x Hk)). now rewrite Eab. }
  assert (Ea2 : value a = N.lxor (value a') x) by (rewrite Ea; now rewrite lxor_twice).
  assert (Hf' : forall c : addr F, valid c -> N.min (value a') (value b') <= value c <= N.max (value a') (value b') ->
    value (flip x c) + value a' = value a + value c).
  { intros c Vc Hc. rewrite (flip_value x Hx c Vc), Ea2. apply (block_shift k); [assumption|].
    assert (Q : forall lo hi, lo / 2 ^ k = hi / 2 ^ k -> lo <= value c <= hi -> value c / 2 ^ k = lo / 2 ^ k) by (intros lo hi Q1 Q2; now apply (between_block k _ lo hi)).
    destruct (N.le_ge_cases (value a') (value b')) as [L|L].
    - apply (Q _ (value b')); [assumption|clear - Hc L; lia].
    - rewrite Eab'. apply (Q _ (value a')); [now symmetry|clear - Hc L; lia]. }
  destruct (move_derange (R := R) x Hx a b a' b' l l') as (l2 & H2 & P); [assumption..| |assumption|assumption|].
  { intros c' Vc'. split.
    - intros H. exists (flip x c'). split; [now apply flip_ok|]. split; [now apply flip_flip|].
      specialize (Hf' c' Vc' H). clear - Hf' H Sab. lia.
    - intros (c & Vc & <- & H). specialize (Hf c Vc H). clear - Hf H Sab. lia. }
  destruct (derange_sorted a b l Va Vb E) as [S B]. destruct (derange_sorted a' b' l' Va' Vb' E') as [S' B'].
  replace l' with l2; [assumption|]. apply follows_same; [|assumption..].
  apply (sorted_image (moved x) follows _ l l2 H2 S). intros n m n2 m2 Hn Hm Tn Tm (_ & _ & Q).
  split; [apply Tn|]. split; [apply Tm|]. intros c d Vc Vd Mc Md.
  apply (moved_mem x Hx n n2 Tn c Vc) in Mc. destruct Mc as (c0 & V0 & <- & M0).
  apply (moved_mem x Hx m m2 Tm d Vd) in Md. destruct Md as (d0 & Vd0 & <- & Md0).
  specialize (Q c0 d0 V0 Vd0 M0 Md0). pose proof (Hf c0 V0 (B n c0 Hn V0 M0)) as H1. pose proof (Hf d0 Vd0 (B m d0 Hm Vd0 Md0)) as H3. clear - H1 H3 Q. lia.
Qed.

(** *** Networks with one mask *)
Lemma same_mask `{R : Rust} {F} (e e' : net F) c : wf_net e -> wf_net e' -> subnet_mask e = subnet_mask e' ->
  member e c -> member e' c -> e = e'.
Proof.
  intros W W' Em Hc Hc'. apply (includes_eq R); [assumption..| |].
  - intros d Vd Hd i Hi Ei. rewrite (Hd i Hi) by (now rewrite <- Em). rewrite <- (Hc' i Hi) by (now rewrite <- Em). now apply Hc.
  - intros d Vd Hd i Hi Ei. rewrite (Hd i Hi) by (now rewrite Em). rewrite <- (Hc i Hi) by (now rewrite Em). now apply Hc'.
Qed.
Lemma same_cover `{R : Rust} {F} (m : addr F) (l l' : list (net F)) :
  Forall (fun e => wf_net e /\ subnet_mask e = m) l -> Forall (fun e => wf_net e /\ subnet_mask e = m) l' ->
  (forall c, valid c -> (covered l c <-> covered l' c)) -> forall e, In e l -> In e l'.
Proof.
  intros Hl Hl' Hc e He. rewrite Forall_forall in Hl, Hl'. destruct (Hl e He) as [W Em].
  destruct (proj1 (Hc (base_addr e) (wf_base e W))) as (e' & He' & Hm); [exists e; split; [assumption|apply member_base]|].
  destruct (Hl' e' He') as [W' Em']. now rewrite (same_mask e e' (base_addr e)); [|assumption..|congruence|apply member_base|].
Qed.
Lemma follows_NoDup {F} (l : list (net F)) : StronglySorted follows l -> NoDup l.
Proof.
  intros S. induction S as [|n r S IH Hf]; constructor; [|assumption].
  intros C. rewrite Forall_forall in Hf. now apply (follows_irr n), Hf.
Qed.
Lemma cidr_mask {F} (e : net F) q (m : addr F) : is_cidr e q -> valid m -> contiguous F (value m) q -> subnet_mask e = m.
Proof.
  intros [W Hq] Vm [_ Em]. apply (value_inj (R := debug_env)); [apply W|assumption|]. apply (wf_prefix e W) in Hq. destruct Hq as [_ ->]. now symmetry.
Qed.
Lemma mask_cidr {F} (e : net F) q (m : addr F) : wf_net e -> subnet_mask e = m -> contiguous F (value m) q -> is_cidr e q.
Proof. intros W <- Hq. split; [assumption|]. now apply (wf_prefix e W). Qed.

Section Move.
  Context {R : Rust} {F : family} (x : N) (Hx : x < 2 ^ width F).
  Implicit Types (n : net F) (a c : addr F).
  Lemma moved_base n n' p : moved x n n' -> is_cidr n p -> x mod 2 ^ (width F - p) = 0 ->
    value (base_addr n') = N.lxor (value (base_addr n)) x.
  Proof.
    intros H Hn Hm. pose proof (moved_prefix x n n' p H Hn) as Hn'.
    assert (Hb : member n' (flip x (base_addr n))).
    { apply (moved_mem x Hx n n' H); [apply flip_ok; [assumption|apply Hn]|]. exists (base_addr n). split; [apply Hn|]. split; [reflexivity|apply member_base]. }
    apply (member_interval (R := R) n' p) in Hb; [|assumption|apply flip_ok; [assumption|apply Hn]].
    rewrite flip_value in Hb by (assumption || apply Hn).
    destruct (base_aligned n p Hn) as (A & _). destruct (base_aligned n' p Hn') as (A' & _).
    pose proof (proj2 (lxor_block (width F - p) (value (base_addr n)) x Hm)) as A2. rewrite A in A2.
    assert (P : 2 ^ (width F - p) <> 0) by (apply N.pow_nonzero; discriminate).
    apply N.mod_divide in A'; [|assumption]. apply N.mod_divide in A2; [|assumption].
    destruct A' as [u Eu], A2 as [w Ew]. rewrite Eu, Ew in *. clear -Hb P. f_equal. revert Hb P. generalize (2 ^ (width F - p)).
    intros k H P. assert (u <= w) by (apply (N.mul_le_mono_pos_r _ _ k); lia). assert (w < u + 1) by (apply (N.mul_lt_mono_pos_r k); lia). lia.
  Qed.
  Lemma includes_prefix n e p q : is_cidr n p -> is_cidr e q -> includes n e -> p <= q /\ value (base_addr e) / 2 ^ (width F - p) = value (base_addr n) / 2 ^ (width F - p).
  Proof.
    intros Hn He Hi.
    destruct (base_aligned n p Hn) as (An & Tn & Lp). destruct (base_aligned e q He) as (Ae & Te & Lq).
    pose proof (pow2_pos (width F - q)) as Hq.
    assert (Hb : member n (base_addr e)) by (apply Hi; [apply He|apply member_base]).
    apply (member_interval (R := R) n p) in Hb; [|assumption|apply He].
    destruct (of_n_spec F (value (base_addr e) + 2 ^ (width F - q) - 1)) as [V Ev]; [lia|].
    assert (Ht : member n (of_n F (value (base_addr e) + 2 ^ (width F - q) - 1))).
    { apply Hi; [assumption|]. apply (member_interval (R := R) e q); [assumption..|]. rewrite Ev. lia. }
    apply (member_interval (R := R) n p) in Ht; [|assumption..]. rewrite Ev in Ht. split.
    - assert (2 ^ (width F - q) <= 2 ^ (width F - p)) as L by lia. apply N.pow_le_mono_r_iff in L; lia.
    - pose proof (pow2_pos (width F - p)) as Hp. apply N.mod_divide in An; [|lia]. destruct An as [u Eu]. rewrite Eu in *.
      rewrite N.div_mul by lia. symmetry. apply (N.div_unique _ _ _ (value (base_addr e) - u * 2 ^ (width F - p))); lia.
  Qed.
End Move.

Lemma c81_resize : forall (R : Rust) (F : family) (x p q : N) (m : addr F) (n n' : net F) (l l' : list (net F)) (o o' : comparison),
  x < 2 ^ width F -> is_cidr n p -> moved x n n' -> valid m -> contiguous F (value m) q ->
  resize_network n m = Ret (l, o) -> resize_network n' m = Ret (l', o') ->
  o' = o /\ exists l2, Forall2 (moved x) l l2 /\ Permutation l2 l' /\ (x mod 2 ^ (width F - p) = 0 -> l2 = l').
Proof.
  intros R F x p q m n n' l l' o o' Hx Hn HT Vm Hq E E'. pose proof (moved_prefix x n n' p HT Hn) as Hn'.
  assert (Hw : forall e : net F, is_cidr e q -> wf_net e /\ subnet_mask e = m) by (intros e He; split; [apply He|now apply (cidr_mask e q)]).
  destruct (N.lt_trichotomy p q) as [C|[C|C]].
  - destruct (c53_subnets_cidr R F n m p q Hn Vm Hq C) as (l0 & E0 & _ & Hl & Hc & S). rewrite E in E0. injection E0 as <- ->.
    destruct (c53_subnets_cidr R F n' m p q Hn' Vm Hq C) as (l0 & E0 & _ & Hl' & Hc' & S'). rewrite E' in E0. injection E0 as <- ->.
    split; [reflexivity|].
    assert (Kl : Forall cidr_net l) by (eapply Forall_impl; [|exact Hl]; intros e He; now exists q).
    assert (Kl' : Forall cidr_net l') by (eapply Forall_impl; [|exact Hl']; intros e He; now exists q).
    apply follows_sorted in S; [|assumption]. apply follows_sorted in S'; [|assumption].
    destruct (T_list (moved x) (cidr_moved (R := R) x Hx) l Kl) as (l2 & H2). exists l2. split; [assumption|].
    assert (M2 : Forall (fun e => is_cidr e q) l2).
    { clear -H2 Hl. induction H2 as [|e e2 l l2 He H2 IH]; constructor; inversion Hl; subst; [now apply (moved_prefix x e)|now apply IH]. }
    assert (C2 : forall c, valid c -> (covered l2 c <-> covered l' c)).
    { intros c Vc. rewrite (T_covered (flip x) (moved x) (moved_mem (R := R) x Hx) l l2 c H2 Vc).
      transitivity (member n' c); [|exact (Hc' c Vc)]. rewrite (moved_mem (R := R) x Hx n n' HT c Vc).
      split; intros (c0 & V0 & Ec & H0); exists c0; (split; [assumption|]); (split; [assumption|]); now apply (Hc c0 V0). }
    assert (Hin : forall e, In e l2 <-> In e l').
    { pose proof (Forall_impl _ Hw M2) as A2. pose proof (Forall_impl _ Hw Hl') as A'. intros e. split; apply (same_cover m); try assumption.
      intros c Vc. symmetry. now apply C2. }
    assert (Nd : NoDup l2).
    { apply (T_NoDup (flip x) (moved x) (flip_ok (R := R) x Hx) (flip_inj (R := R) x Hx) (moved_mem (R := R) x Hx) l l2 H2); [now apply cidr_wf_list|now apply follows_NoDup]. }
    pose proof (NoDup_Permutation Nd (follows_NoDup l' S') Hin) as P. split; [assumption|]. intros Hm.
    apply follows_same; [|assumption..]. apply (sorted_image (moved x) follows _ l l2 H2 S).
    intros e f e2 f2 He Hf Te Tf (_ & _ & Q). split; [apply Te|]. split; [apply Tf|]. intros c d Vc Vd Mc Md.
    apply (moved_mem x Hx e e2 Te c Vc) in Mc. destruct Mc as (c0 & V0 & <- & M0).
    apply (moved_mem x Hx f f2 Tf d Vd) in Md. destruct Md as (d0 & Vd0 & <- & Md0).
    specialize (Q c0 d0 V0 Vd0 M0 Md0). rewrite !flip_value by assumption.
    assert (Hblk : forall c, valid c -> member n c -> value c / 2 ^ (width F - p) = value (base_addr n) / 2 ^ (width F - p)).
    { clear Vc Vd. intros c Vc Hmc. apply (member_interval (R := R) n p) in Hmc; [|assumption..]. destruct (base_aligned n p Hn) as (An & _).
      pose proof (pow2_pos (width F - p)) as Hp. apply N.mod_divide in An; [|lia]. destruct An as [u Eu]. rewrite Eu in *.
      rewrite N.div_mul by lia. symmetry. apply (N.div_unique _ _ _ (value c - u * 2 ^ (width F - p))); lia. }
    assert (value c0 / 2 ^ (width F - p) = value d0 / 2 ^ (width F - p)) as B.
    { rewrite (Hblk c0 V0), (Hblk d0 Vd0); [reflexivity|apply Hc; [assumption|now exists f]|apply Hc; [assumption|now exists e]]. }
    pose proof (block_shift _ _ _ x Hm B). lia.
  - subst q. rewrite <- (cidr_mask n p m Hn Vm Hq) in E. rewrite <- (cidr_mask n' p m Hn' Vm Hq) in E'.
    rewrite (c54_own_mask R F n (proj1 Hn)) in E. rewrite (c54_own_mask R F n' (proj1 Hn')) in E'.
    injection E as <- <-. injection E' as <- <-. split; [reflexivity|]. exists [n']. split; [constructor; [assumption|constructor]|]. split; reflexivity.
  - destruct (c52_supernet_cidr R F n m p q Hn Vm Hq C) as (e & E0 & He & Hi). rewrite E in E0. injection E0 as -> ->.
    destruct (c52_supernet_cidr R F n' m p q Hn' Vm Hq C) as (e' & E0 & He' & Hi'). rewrite E' in E0. injection E0 as -> ->.
    split; [reflexivity|]. destruct (moved_exists (R := R) x Hx e (proj1 He)) as [e2 H2]. exists [e2].
    assert (e2 = e').
    { apply (same_mask (R := R) e2 e' (base_addr n')); [apply H2|apply He'| |apply (moved_mem (R := R) x Hx e e2 H2); [apply Hn'|]|].
      - rewrite (proj1 (proj2 H2)). transitivity m; [now apply (cidr_mask e q)|symmetry; now apply (cidr_mask e' q)].
      - destruct (proj1 (moved_mem (R := R) x Hx n n' HT (base_addr n') (wf_base n' (proj1 Hn'))) (member_base n')) as (c & Vc & Ec & Hm).
        exists c. split; [assumption|]. split; [assumption|]. now apply Hi.
      - apply Hi'; [apply Hn'|apply member_base]. }
    subst e2. split; [constructor; [assumption|constructor]|]. split; reflexivity.
Qed.

Definition move {R : Rust} {F} (x : N) (n : net F) : net F := new_with_mask (flip x (base_addr n)) (subnet_mask n).
Lemma move_moved {R : Rust} {F} (x : N) (n : net F) : x < 2 ^ width F -> wf_net n -> moved x n (move x n).
Proof.
  intros Hx W. destruct (c81_moved R F x n Hx W) as (n' & H & _). replace (move x n) with n'; [assumption|].
  unfold move. destruct (c17_with_mask R F (flip x (base_addr n)) (subnet_mask n)) as (W' & Hm & Em & _); [apply flip_ok; [assumption|apply W]|apply W|].
  apply (same_mask (R := R) _ _ (flip x (base_addr n))); [apply H|assumption| | |assumption].
  - rewrite (proj1 (proj2 H)). now symmetry.
  - apply (moved_mem (R := R) x Hx n n' H); [apply flip_ok; [assumption|apply W]|]. exists (base_addr n). split; [apply W|]. split; [reflexivity|apply member_base].
Qed.
Lemma combine_map_r {X Y Z} (f : Y -> Z) (xs : list X) ys : combine xs (map f ys) = map (fun q => (fst q, f (snd q))) (combine xs ys).
Proof. revert ys. induction xs as [|a xs IH]; intros [|b ys]; cbn [combine map]; [reflexivity..|]. now rewrite IH. Qed.

Lemma run_moved {R : Rust} {F} (x : N) (n n' : net F) p (ns : list (net F)) : x < 2 ^ width F -> is_cidr n p -> moved x n n' ->
  x mod 2 ^ (width F - p) = 0 -> Forall (includes n) ns -> forall y z, y + value (base_addr n') = z + value (base_addr n) ->
  run y ns -> run z (map (move x) ns).
Proof.
  intros Hx Hn HT Hm. induction ns as [|e ns IH]; intros Hi y z Eyz; cbn [run map]; [trivial|].
  intros (q & He & Ey & Hr). inversion Hi as [|? ? Hie Hi']; subst. destruct (includes_prefix (R := R) x Hx n e p q Hn He Hie) as [Lpq Hb].
  pose proof (move_moved x e Hx (proj1 He)) as Te. exists q. split; [now apply (moved_prefix x e)|].
  destruct (base_aligned n p Hn) as (_ & _ & Lp). destruct (base_aligned e q He) as (_ & _ & Lq).
  assert (Hmq : x mod 2 ^ (width F - q) = 0) by (apply (Blocks.mod_pow_le x (width F - q) (width F - p)); [lia|assumption]). split.
  - rewrite (moved_base (R := R) x Hx e (move x e) q Te He Hmq).
    pose proof (block_shift _ _ _ x Hm Hb) as B. rewrite (moved_base (R := R) x Hx n n' p HT Hn Hm) in Eyz. clear - B Eyz. lia.
  - apply (IH Hi' (value (base_addr e) + 2 ^ (width F - q))); [clear - Eyz; lia|assumption].
Qed.

Lemma c81_split : forall (R : Rust) (F : family) (x p : N) (cs : list Z) (n n' : net F) (r r' : list (net F)),
  x < 2 ^ width F -> is_cidr n p -> moved x n n' -> x mod 2 ^ (width F - p) = 0 -> total cs <= 2 ^ (width F - p) ->
  split_subnet n cs = Ret (Some r) -> split_subnet n' cs = Ret (Some r') ->
  exists r2, Forall2 (moved x) r r2 /\ Permutation (combine cs r2) (combine cs r') /\ (NoDup cs -> r2 = r').
Proof.
  intros R F x p cs n n' r r' Hx Hn HT Hm Ht E E'. pose proof (moved_prefix x n n' p HT Hn) as Hn'.
  assert (Hlt : run_start n cs + total cs < 2 ^ width F) by (apply (c50_succeeds_iff R F n cs (proj1 Hn)); eauto).
  assert (Hlt' : run_start n' cs + total cs < 2 ^ width F) by (apply (c50_succeeds_iff R F n' cs (proj1 Hn')); eauto).
  pose proof (proj2 (c49_inside_iff R F n p cs r Hn E) Ht) as Hi.
  destruct (proj1 (split_parts R F n cs (proj1 Hn)) Hlt) as (r0 & ns & E0 & Pm & Hr & Hc & Hs & Hp & cc & Sc & Pc & Lc & Hcc).
  rewrite E in E0. injection E0 as <-.
  destruct (proj1 (split_parts R F n' cs (proj1 Hn')) Hlt') as (r0 & ns' & E0 & Pm' & Hr' & Hc' & Hs' & Hp' & cc' & Sc' & Pc' & Lc' & Hcc').
  rewrite E' in E0. injection E0 as <-.
  rewrite (fits_start n p cs Hn Ht) in Hr. rewrite (fits_start n' p cs Hn' Ht) in Hr'.
  assert (Hin : Forall (includes n) ns) by (apply (Permutation_Forall Pm Hi)).
  assert (Hr2 : run (value (base_addr n')) (map (move x) ns)) by (apply (run_moved x n n' p ns Hx Hn HT Hm Hin (value (base_addr n))); [lia|assumption]).
  assert (Cr : Forall cidr_net r) by (apply (Permutation_Forall (Permutation_sym Pm) Hc)).
  assert (Tf : forall l : list (net F), Forall cidr_net l -> Forall2 (moved x) l (map (move x) l)).
  { intros l Hl. induction Hl as [|e l [q He] Hl IH]; cbn [map]; [constructor|]. constructor; [now apply move_moved, He|assumption]. }
  assert (Mp : forall l : list (net F), Forall cidr_net l -> map cidr_prefix (map (move x) l) = map cidr_prefix l).
  { intros l Hl. induction Hl as [|e l [q He] Hl IH]; cbn [map]; [reflexivity|]. f_equal; [|assumption].
    rewrite (proj2 He). apply (moved_prefix x e (move x e) q); [now apply move_moved, He|assumption]. }
  assert (En : map (move x) ns = ns').
  { apply (run_same _ _ _ Hr2 Hr'). rewrite (Mp ns Hc). apply pre_prefix; try assumption.
    apply sorted_perm_eq; try assumption.
    rewrite <- (Permutation_map pre Pm), <- (Permutation_map pre Pm').
    replace (map pre r) with (map pre r'); [reflexivity|].
    transitivity (map (fun o : option N => match o with Some p => p | None => 0 end) (map cidr_prefix r')).
    + rewrite map_map. reflexivity.
    + rewrite Hp', <- Hp, map_map. reflexivity. }
  assert (cc = cc') by (apply desc_perm_eq; [assumption..|]; now rewrite Pc, Pc').
  assert (P : Permutation (combine cs (map (move x) r)) (combine cs r')).
  { rewrite Hcc'. subst cc' ns'. rewrite !combine_map_r. now apply Permutation_map. }
  exists (map (move x) r). split; [now apply Tf|]. split; [assumption|]. intros Hnd.
  apply (combine_functional cs); try assumption.
  - apply (f_equal (@List.length _)) in Hp. rewrite !map_length in *. assumption.
  - apply (f_equal (@List.length _)) in Hp'. now rewrite !map_length in Hp'.
Qed.
