(** * Pf_Derived: proofs for P_Derived *)
From Verif Require Import RustBase Addr Cidr BitManip Net Parse Minimize Derived Spec SpecOrder Bits Laws Order Family NetFacts MinimizeFacts Pf_Net.
From Coq Require Import ZifyBool ZifyNat ZifyN.
Ltac Zify.zify_post_hook ::= idtac.

Lemma opposite c : CompOpp c = Lt <-> c = Gt.
Proof. destruct c; split; intros E; try discriminate; reflexivity. Qed.

(** Building orders. *)
Lemma order_N : total_order N.compare.
Proof.
  split.
  - intros a b. apply N.compare_eq_iff.
  - intros a b. now rewrite (N.compare_antisym b a), opposite.
  - intros a b c. rewrite !N.compare_lt_iff. apply N.lt_trans.
Qed.
Lemma order_addr `{R : Rust} F : total_order (@acmp (addr F) _).
Proof.
  split.
  - intros a b. split; [apply ord_eq|intros ->; apply ord_refl].
  - intros a b. rewrite (ord_sym b a). apply opposite.
  - intros a b c. apply ord_trans.
Qed.
Lemma order_opt : total_order opt_cmp.
Proof.
  destruct order_N as [E S G]. split.
  - intros [a|] [b|]; cbn; try (split; discriminate); [rewrite E|]; split; congruence.
  - intros [a|] [b|]; cbn; try (split; congruence). apply S.
  - intros [a|] [b|] [c|]; cbn; try congruence. apply G.
Qed.
Lemma then_lt c d : and_then c d = Lt <-> c = Lt \/ c = Eq /\ d = Lt.
Proof. destruct c; cbn; intuition congruence. Qed.
Lemma then_gt c d : and_then c d = Gt <-> c = Gt \/ c = Eq /\ d = Gt.
Proof. destruct c; cbn; intuition congruence. Qed.
Lemma then_eq c d : and_then c d = Eq <-> c = Eq /\ d = Eq.
Proof. destruct c; cbn; intuition congruence. Qed.
Lemma order_refl {T} (cmp : T -> T -> comparison) : total_order cmp -> forall a, cmp a a = Eq.
Proof. intros H a. now apply (same_eq _ H). Qed.

Lemma order_pair {T T'} (cmp : T -> T -> comparison) (cmp' : T' -> T' -> comparison) :
  total_order cmp -> total_order cmp' -> total_order (pair_cmp cmp cmp').
Proof.
  intros H H'. unfold pair_cmp. split.
  - intros [a a'] [b b']. cbn. rewrite then_eq, (same_eq _ H), (same_eq _ H'). split; [intros []; congruence|intros E; split; congruence].
  - intros [a a'] [b b']. cbn. rewrite then_lt, then_gt, (other_way _ H), (other_way _ H'), !(same_eq _ H). split; intros [K|[K K']]; auto.
  - intros [a a'] [b b'] [c c']. cbn. rewrite !then_lt, !(same_eq _ H). intros [K|[-> K]] [L|[-> L]]; auto.
    + left. now apply (goes_on _ H a b).
    + right. split; [reflexivity|]. now apply (goes_on _ H' a' b').
Qed.
Lemma order_list {T} (cmp : T -> T -> comparison) : total_order cmp -> total_order (list_cmp cmp).
Proof.
  intros H. split.
  - induction a as [|x l IH]; intros [|y l']; cbn; try (split; congruence). rewrite then_eq, (same_eq _ H), IH. split; [intros []; congruence|intros E; split; congruence].
  - induction a as [|x l IH]; intros [|y l']; cbn; try (split; congruence). rewrite then_lt, then_gt, IH, (other_way _ H), !(same_eq _ H). split; intros [K|[K K']]; auto.
  - induction a as [|x l IH]; intros [|y l'] [|z l'']; cbn; try congruence. rewrite !then_lt, !(same_eq _ H). intros [K|[-> K]] [L|[-> L]]; auto.
    + left. now apply (goes_on _ H x y).
    + right. split; [reflexivity|]. now apply (IH l').
Qed.
Lemma order_net `{R : Rust} F : total_order (@net_cmp (addr F) _).
Proof.
  pose proof (order_pair _ _ (order_addr F) (order_pair _ _ (order_addr F) order_opt)) as H.
  set (f := fun n : network (addr F) => (base_addr n, (subnet_mask n, cidr_prefix n))).
  assert (E : forall n m, net_cmp n m = pair_cmp acmp (pair_cmp acmp opt_cmp) (f n) (f m)) by reflexivity.
  split.
  - intros a b. rewrite E, (same_eq _ H). destruct a, b. unfold f. cbn. split; congruence.
  - intros a b. rewrite !E. apply (other_way _ H).
  - intros a b c. rewrite !E. apply (goes_on _ H).
Qed.

Lemma c90_orders : forall (R : Rust),
  (forall F : family, total_order (@acmp (addr F) _) /\ total_order (@net_cmp (addr F) _)) /\
  total_order parsed_cmp /\ total_order spec_cmp /\ total_order specs_cmp /\ total_order subnet_cmp.
Proof.
  intros R. split; [intros F; split; [apply order_addr|apply order_net]|].
  pose proof (order_addr V4) as A4. pose proof (order_addr V6) as A6. pose proof (order_net V4) as N4. pose proof (order_net V6) as N6.
  pose proof (order_pair _ _ A4 N4) as P4. pose proof (order_pair _ _ A6 N6) as P6.
  pose proof (order_list _ P4) as L4. pose proof (order_list _ P6) as L6.
  split; [|split; [|split]].
  - split.
    + intros [a|a] [b|b]; cbn [parsed_cmp]; try (split; discriminate); [rewrite (same_eq _ A4)|rewrite (same_eq _ A6)]; split; congruence.
    + intros [a|a] [b|b]; cbn [parsed_cmp]; try (split; congruence); [apply (other_way _ A4)|apply (other_way _ A6)].
    + intros [a|a] [b|b] [c|c]; cbn [parsed_cmp]; try congruence; [apply (goes_on _ A4)|apply (goes_on _ A6)].
  - split.
    + intros [a n|a n] [b m|b m]; try (cbn [spec_cmp]; split; discriminate).
      * pose proof (same_eq _ P4 (a, n) (b, m)) as E. change (spec_cmp (Spec4 a n) (Spec4 b m)) with (pair_cmp (@acmp (addr V4) _) net_cmp (a, n) (b, m)). rewrite E. split; congruence.
      * pose proof (same_eq _ P6 (a, n) (b, m)) as E. change (spec_cmp (Spec6 a n) (Spec6 b m)) with (pair_cmp (@acmp (addr V6) _) net_cmp (a, n) (b, m)). rewrite E. split; congruence.
    + intros [a n|a n] [b m|b m]; try (cbn [spec_cmp]; split; congruence); [exact (other_way _ P4 (a, n) (b, m))|exact (other_way _ P6 (a, n) (b, m))].
    + intros [a n|a n] [b m|b m] [c k|c k]; try (cbn [spec_cmp]; congruence); [exact (goes_on _ P4 (a, n) (b, m) (c, k))|exact (goes_on _ P6 (a, n) (b, m) (c, k))].
  - split.
    + intros [| |a|a] [| |b|b]; cbn [specs_cmp specs_index]; try (split; [discriminate|congruence]); try (split; reflexivity); [pose proof (same_eq _ L4 a b) as E|pose proof (same_eq _ L6 a b) as E];
        split; try (intros K; f_equal; now apply E); intros K; apply E; congruence.
    + intros [| |a|a] [| |b|b]; cbn [specs_cmp specs_index]; try (split; [discriminate|discriminate]); try (split; reflexivity); [apply (other_way _ L4)|apply (other_way _ L6)].
    + intros [| |a|a] [| |b|b] [| |c|c]; cbn [specs_cmp specs_index]; try discriminate; try reflexivity; try (intros _; discriminate); try (intros _ _; reflexivity); [apply (goes_on _ L4)|apply (goes_on _ L6)].
  - split.
    + intros [p|a|a] [q|b|b]; cbn [subnet_cmp subnet_index]; try (split; [discriminate|congruence]); [rewrite (same_eq _ order_N)|rewrite (same_eq _ A4)|rewrite (same_eq _ A6)]; split; congruence.
    + intros [p|a|a] [q|b|b]; cbn [subnet_cmp subnet_index]; try (split; [discriminate|discriminate]); try (split; reflexivity); [apply (other_way _ order_N)|apply (other_way _ A4)|apply (other_way _ A6)].
    + intros [p|a|a] [q|b|b] [r|c|c]; cbn [subnet_cmp subnet_index]; try discriminate; try reflexivity; try (intros _; discriminate); try (intros _ _; reflexivity); [apply (goes_on _ order_N)|apply (goes_on _ A4)|apply (goes_on _ A6)].
Qed.

(** The prefix follows from the mask. *)
Lemma prefix_same F (n n' : net F) : wf_net n -> wf_net n' -> subnet_mask n = subnet_mask n' -> cidr_prefix n = cidr_prefix n'.
Proof.
  intros W W' E. pose proof (wf_prefix n W) as P. pose proof (wf_prefix n' W') as P'. rewrite E in P. unfold net in *.
  destruct (cidr_prefix n) as [p|] eqn:Ep.
  - symmetry. apply P', P. reflexivity.
  - destruct (cidr_prefix n') as [p|] eqn:Ep'; [|reflexivity]. destruct (P p) as [_ P1]. rewrite P1 by now apply P'. reflexivity.
Qed.

Lemma c90_key : forall (R : Rust) (F : family) (n n' : net F),
  wf_net n -> wf_net n' -> net_cmp n n' = key_cmp n n'.
Proof.
  intros R F n n' W W'. unfold net_cmp, key_cmp, and_then. destruct (acmp (base_addr n) (base_addr n')); try reflexivity.
  destruct (acmp (subnet_mask n) (subnet_mask n')) eqn:E; try reflexivity. apply ord_eq in E.
  rewrite (prefix_same F n n' W W' E). apply (order_refl _ order_opt).
Qed.

Lemma not_above {T} (cmp : T -> T -> comparison) : total_order cmp -> forall a b c, cmp a b <> Gt -> cmp b c <> Gt -> cmp a c <> Gt.
Proof.
  intros H a b c K L. destruct (cmp a b) eqn:E; try congruence.
  - apply (same_eq _ H) in E. now subst.
  - destruct (cmp b c) eqn:E'; try congruence.
    + apply (same_eq _ H) in E'. subst. congruence.
    + rewrite (goes_on _ H a b c E E'). discriminate.
Qed.
Lemma turned {T} (cmp : T -> T -> comparison) : total_order cmp -> forall a b, cmp b a = CompOpp (cmp a b).
Proof.
  intros H a b. pose proof (same_eq _ H a b) as E. pose proof (other_way _ H a b) as L. pose proof (other_way _ H b a) as L'. destruct (cmp a b); cbn.
  - rewrite (proj1 E eq_refl). now apply (order_refl _ H).
  - now apply L.
  - now apply L'.
Qed.
(** Two sorted arrangements of the same list are equal. *)
Lemma sorted_same {T} (cmp : T -> T -> comparison) : total_order cmp -> forall l l', Permutation l l' ->
  Sorted (fun x y => cmp x y <> Gt) l -> Sorted (fun x y => cmp x y <> Gt) l' -> l = l'.
Proof.
  intros H. assert (Tr : Relations_1.Transitive (fun x y => cmp x y <> Gt)) by (intros a b c; apply (not_above _ H)).
  induction l as [|x l IH]; intros l' P S S'; [symmetry; now apply Permutation_nil|].
  apply Sorted_StronglySorted in S; [|exact Tr]. apply Sorted_StronglySorted in S'; [|exact Tr].
  destruct l' as [|y l']; [apply Permutation_sym, Permutation_nil in P; discriminate|].
  inversion_clear S as [|? ? S1 S2]. inversion_clear S' as [|? ? S1' S2'].
  assert (x = y) as <-.
  { assert (Ix : In x (y :: l')) by (eapply Permutation_in; [exact P|now left]). assert (Iy : In y (x :: l)) by (eapply Permutation_in; [apply Permutation_sym; exact P|now left]).
    destruct Ix as [Ix|Ix]; [congruence|]. destruct Iy as [Iy|Iy]; [congruence|].
    rewrite Forall_forall in S2, S2'. pose proof (S2 y Iy) as K. pose proof (S2' x Ix) as K'. rewrite (turned _ H x y) in K'.
    destruct (cmp x y) eqn:E; cbn in *; try congruence. now apply (same_eq _ H). }
  f_equal. apply IH; [now apply Permutation_cons_inv in P|now apply StronglySorted_Sorted..].
Qed.
Lemma sorted_key `{R : Rust} F (l : list (net F)) : Forall wf_net l -> Sorted (fun x y => key_cmp x y <> Gt) l -> Sorted (fun x y => net_cmp x y <> Gt) l.
Proof.
  induction l as [|n l IH]; intros W S; [constructor|]. inversion_clear S as [|? ? S1 S2]. inversion_clear W as [|? ? Wn Wl].
  constructor; [now apply IH|]. destruct S2 as [|m l' S2]; constructor. inversion_clear Wl. now rewrite c90_key.
Qed.

Lemma c90_sort : forall (R : Rust) (F : family) (l : list (net F)),
  Forall wf_net l -> sort_by net_cmp l = sort_nets l.
Proof.
  intros R F l W. pose proof (order_net F) as H. apply (sorted_same net_cmp H).
  - transitivity l; [apply sort_by_perm|symmetry; apply sort_nets_perm].
  - apply sort_by_sorted; [intros a b; apply (turned _ H)|intros a b c; apply (not_above _ H)].
  - apply sorted_key; [|apply sort_by_sorted; [apply key_sym|apply key_le_trans]].
    eapply Permutation_Forall; [symmetry; apply sort_nets_perm|exact W].
Qed.

Lemma cmp_value `{R : Rust} F (a b : addr F) : valid a -> valid b -> acmp a b = N.compare (value a) (value b).
Proof. intros Ha Hb. rewrite law_cmp by now apply valid_ok. now rewrite !value_v. Qed.

Lemma c90_cidr : forall (R : Rust) (F : family) (n n' : net F) (p p' : N),
  is_cidr n p -> is_cidr n' p' ->
  (net_cmp n n' = Lt <->
   value (base_addr n) < value (base_addr n') \/ value (base_addr n) = value (base_addr n') /\ p < p').
Proof.
  intros R F n n' p p' [W P] [W' P']. rewrite (c90_key R F n n' W W'). unfold key_cmp.
  rewrite !cmp_value by (apply W || apply W'). apply (wf_prefix n W) in P. apply (wf_prefix n' W') in P'. destruct P as [L P]. destruct P' as [L' P'].
  assert (M : N.compare (value (subnet_mask n)) (value (subnet_mask n')) = Lt <-> p < p').
  { rewrite N.compare_lt_iff. unfold net in *. rewrite P, P'. unfold prefix_mask.
    destruct (N.lt_trichotomy p p') as [K|[K|K]].
    - pose proof (N.pow_lt_mono_r 2 (width F - p') (width F - p)) as X. pose proof (N.pow_le_mono_r 2 (width F - p) (width F)) as Y. split; intros; [exact K|]. lia.
    - subst p'. split; lia.
    - pose proof (N.pow_lt_mono_r 2 (width F - p) (width F - p')) as X. pose proof (N.pow_le_mono_r 2 (width F - p) (width F)) as Y. pose proof (N.pow_le_mono_r 2 (width F - p') (width F)) as Y'. split; lia. }
  unfold net in *.
  destruct (N.compare_spec (value (base_addr n)) (value (base_addr n'))) as [E|E|E].
  - rewrite M, E. split; [right; now split|intros [K|[_ K]]; [destruct (N.lt_irrefl _ K)|exact K]].
  - split; [now left|reflexivity].
  - split; [discriminate|]. intros [K|[K _]]; lia.
Qed.

Lemma c90_equal : forall (R : Rust) (F : family) (n n' : net F),
  (net_cmp n n' = Eq <-> net_eqb n n' = true) /\
  (wf_net n -> wf_net n' -> (net_cmp n n' = Eq <-> forall a, valid a -> (member n a <-> member n' a))).
Proof.
  intros R F n n'. pose proof (same_eq _ (order_net F) n n') as E. split.
  - rewrite E. symmetry. apply net_eqb_eq.
  - intros W W'. rewrite E. split; [intros ->; tauto|]. now apply c21_extensionality.
Qed.

Lemma c90_families : forall (R : Rust) (a a' : addr V4) (b b' : addr V6),
  valid a -> valid a' -> valid b -> valid b' ->
  parsed_cmp (PAddr4 a) (PAddr6 b) = Lt /\
  parsed_cmp (PAddr4 a) (PAddr4 a') = N.compare (value a) (value a') /\
  parsed_cmp (PAddr6 b) (PAddr6 b') = N.compare (value b) (value b').
Proof.
  intros R a a' b b' Ha Ha' Hb Hb'. cbn [parsed_cmp]. split; [reflexivity|]. split; [exact (cmp_value V4 a a' Ha Ha')|exact (cmp_value V6 b b' Hb Hb')].
Qed.

Lemma c90_zero : forall (R : Rust) (a : addr V4) (b : addr V6),
  IPV4_ZERO = ipv4_default /\ IPV6_ZERO = ipv6_default /\ value (F := V4) IPV4_ZERO = 0 /\ value (F := V6) IPV6_ZERO = 0 /\
  acmp IPV4_ZERO a <> Gt /\ acmp IPV6_ZERO b <> Gt.
Proof.
  intros R [a] [b b']. split; [reflexivity|]. split; [reflexivity|]. split; [reflexivity|]. split; [reflexivity|].
  assert (Z : forall x, 0 ?= x <> Gt) by (intros x; rewrite N.compare_gt_iff; apply N.nlt_0_r). split; [exact (Z a)|].
  change (match 0 ?= b with Eq => 0 ?= b' | Lt => Lt | Gt => Gt end <> Gt). specialize (Z b) as Z1. specialize (Z b') as Z2.
  destruct (0 ?= b); congruence.
Qed.

Lemma c90_inside : forall (R : Rust) (F : family) (n n' : net F),
  wf_net n -> wf_net n' -> n <> n' -> (forall a, valid a -> member n' a -> member n a) -> net_cmp n n' = Lt.
Proof.
  intros R F n n' W W' Hne Hin. rewrite (c90_key R F n n' W W'). apply strict_key; [now apply wf_okN..|]. split; [|exact Hne].
  now apply (c20_superset R F n n').
Qed.

(** The orders in full. *)
Lemma addr_declared `{R : Rust} F (a b : addr F) : valid a -> valid b -> (acmp a b = Lt <-> addr_before a b).
Proof. intros Ha Hb. rewrite cmp_value by assumption. apply N.compare_lt_iff. Qed.
Lemma prefix_declared p q : opt_cmp p q = Lt <-> prefix_before p q.
Proof. destruct p, q; cbn; try (split; [discriminate|tauto]); [apply N.compare_lt_iff|tauto]. Qed.
Lemma net_declared `{R : Rust} F (n m : net F) : valid (base_addr n) -> valid (subnet_mask n) -> valid (base_addr m) -> valid (subnet_mask m) ->
  (net_cmp n m = Lt <-> net_before n m).
Proof.
  intros. unfold net_cmp, net_before. rewrite !then_lt, !(same_eq _ (order_addr F)), !addr_declared, prefix_declared by assumption. reflexivity.
Qed.
Lemma both_declared `{R : Rust} F (x y : addr F * net F) : sound_both x -> sound_both y -> (pair_cmp acmp net_cmp x y = Lt <-> both_before x y).
Proof.
  intros (H1 & H2 & H3) (K1 & K2 & K3). unfold pair_cmp, both_before. rewrite then_lt, (same_eq _ (order_addr F)), addr_declared, net_declared by assumption. reflexivity.
Qed.
Lemma list_declared {T} (P : T -> Prop) cmp lt : total_order cmp -> (forall x y, P x -> P y -> (cmp x y = Lt <-> lt x y)) ->
  forall l l' : list T, Forall P l -> Forall P l' -> (list_cmp cmp l l' = Lt <-> dictionary lt l l').
Proof.
  intros O H. induction l as [|x l IH]; intros [|y l'] Hl Hl'; cbn [list_cmp].
  - split; [discriminate|intros K; inversion K].
  - split; [constructor|reflexivity].
  - split; [discriminate|intros K; inversion K].
  - inversion Hl; inversion Hl'; subst. rewrite then_lt, (same_eq _ O), (H x y), (IH l') by assumption. split.
    + intros [K|[-> K]]; [now apply dictionary_first|now apply dictionary_later].
    + intros K. inversion K; subst; auto.
Qed.
Lemma c90_declared : forall (R : Rust),
  (forall (F : family) (n m : net F), valid (base_addr n) -> valid (subnet_mask n) -> valid (base_addr m) -> valid (subnet_mask m) ->
     (net_cmp n m = Lt <-> net_before n m)) /\
  (forall s s', sound_spec s -> sound_spec s' -> (spec_cmp s s' = Lt <-> spec_before s s')) /\
  (forall s s', sound_specs s -> sound_specs s' -> (specs_cmp s s' = Lt <-> specs_before s s')) /\
  (forall s s', sound_subnet s -> sound_subnet s' -> (subnet_cmp s s' = Lt <-> subnet_before s s')).
Proof.
  intros R. split; [exact net_declared|]. split; [|split].
  - intros [a n|a n] [b m|b m] H H'; unfold spec_before; cbn [spec_cmp spec_place sound_spec] in *.
    + pose proof (both_declared V4 (a, n) (b, m) H H') as E. change (and_then (acmp a b) (net_cmp n m)) with (pair_cmp (@acmp (addr V4) _) net_cmp (a, n) (b, m)).
      rewrite E. split; [now right|intros [K|K]; [lia|exact K]].
    + split; [left; lia|reflexivity].
    + split; [discriminate|intros [K|[]]; lia].
    + pose proof (both_declared V6 (a, n) (b, m) H H') as E. change (and_then (acmp a b) (net_cmp n m)) with (pair_cmp (@acmp (addr V6) _) net_cmp (a, n) (b, m)).
      rewrite E. split; [now right|intros [K|K]; [lia|exact K]].
  - assert (I : forall p q (Q : Prop), ~ Q -> (N.compare p q = Lt <-> p < q \/ Q)).
    { intros p q Q NQ. rewrite N.compare_lt_iff. split; [now left|intros [K|K]; [exact K|contradiction]]. }
    intros [| |a|a] [| |b|b] H H'; unfold specs_before; cbn [specs_cmp specs_index specs_place sound_specs] in *; try (apply I; tauto).
    + pose proof (list_declared _ _ _ (order_pair _ _ (order_addr V4) (order_net V4)) (both_declared V4) a b H H') as E.
      split; [intros K; right; now apply E|intros [K|K]; [lia|now apply E]].
    + pose proof (list_declared _ _ _ (order_pair _ _ (order_addr V6) (order_net V6)) (both_declared V6) a b H H') as E.
      split; [intros K; right; now apply E|intros [K|K]; [lia|now apply E]].
  - assert (I : forall p q (Q : Prop), ~ Q -> (N.compare p q = Lt <-> p < q \/ Q)).
    { intros p q Q NQ. rewrite N.compare_lt_iff. split; [now left|intros [K|K]; [exact K|contradiction]]. }
    intros [p|a|a] [q|b|b] H H'; unfold subnet_before; cbn [subnet_cmp subnet_index subnet_place sound_subnet] in *; try (apply I; tauto).
    + rewrite N.compare_lt_iff. split; [now right|intros [K|K]; [lia|exact K]].
    + pose proof (addr_declared V4 a b H H') as E. split; [intros K; right; now apply E|intros [K|K]; [lia|now apply E]].
    + pose proof (addr_declared V6 a b H H') as E. split; [intros K; right; now apply E|intros [K|K]; [lia|now apply E]].
Qed.
