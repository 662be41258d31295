(** * Order: the comparison of addresses is a total order on all values of the
    address type, which is what sorting needs; sorted lists *)
From Verif Require Import RustBase Addr BitManip Cidr Net Minimize Spec.
From Coq Require Import ZifyBool ZifyNat ZifyN.

Class Ordered (A : Type) `{IpAddress A} : Prop := {
  ord_sym : forall a b : A, acmp b a = CompOpp (acmp a b);
  ord_eq : forall a b : A, acmp a b = Eq -> a = b;
  ord_trans : forall a b c : A, acmp a b = Lt -> acmp b c = Lt -> acmp a c = Lt
}.

#[export] Instance v4_ordered : @Ordered ipv4 ipv4_ops.
Proof.
  constructor; cbn [acmp ipv4_ops]; unfold v4_cmp.
  - intros a b. apply N.compare_antisym.
  - intros [a] [b] H. cbn in H. apply N.compare_eq in H. congruence.
  - intros a b c. rewrite !N.compare_lt_iff. lia.
Qed.

#[export] Instance v6_ordered (R : Rust) : @Ordered ipv6 ipv6_ops.
Proof.
  constructor; cbn [acmp ipv6_ops]; unfold v6_cmp.
  - intros a b. rewrite (N.compare_antisym (top_half a)), (N.compare_antisym (bottom_half a)).
    now destruct (top_half a ?= top_half b).
  - intros [a a'] [b b'] H. cbn in H. destruct (a ?= b) eqn:E; try discriminate.
    apply N.compare_eq in E, H. congruence.
  - intros a b c.
    destruct (N.compare_spec (top_half a) (top_half b)), (N.compare_spec (top_half b) (top_half c)),
      (N.compare_spec (top_half a) (top_half c)); try discriminate; try reflexivity; intros; try lia.
    rewrite N.compare_lt_iff in *. lia.
Qed.

#[export] Instance family_ordered (R : Rust) (F : family) : @Ordered (addr F) (addr_ops F).
Proof. destruct F; [apply v4_ordered|apply v6_ordered]. Qed.

Section Keys.
  Context `{R : Rust} {A : Type} `{I : IpAddress A} `{O : !Ordered A}.

  Lemma ord_refl a : acmp a a = Eq.
  Proof. pose proof (ord_sym a a) as E. now destruct (acmp a a). Qed.

  Lemma key_sym (n n' : network A) : key_cmp n' n = CompOpp (key_cmp n n').
  Proof.
    unfold key_cmp. rewrite (ord_sym (base_addr n) (base_addr n')), (ord_sym (subnet_mask n) (subnet_mask n')).
    now destruct (acmp (base_addr n) (base_addr n')).
  Qed.

  Lemma cmp_cases a b : acmp a b = Lt \/ a = b \/ acmp b a = Lt.
  Proof.
    destruct (acmp a b) eqn:E; auto.
    - right; left. now apply ord_eq.
    - right; right. rewrite ord_sym, E. reflexivity.
  Qed.

  Lemma key_lt (n n' : network A) :
    key_cmp n n' = Lt <->
    acmp (base_addr n) (base_addr n') = Lt \/
    base_addr n = base_addr n' /\ acmp (subnet_mask n) (subnet_mask n') = Lt.
  Proof.
    unfold key_cmp. destruct (acmp (base_addr n) (base_addr n')) eqn:E.
    - apply ord_eq in E. intuition discriminate.
    - intuition.
    - split; [discriminate|]. intros [?|[H _]]; [discriminate|]. rewrite H, ord_refl in E. discriminate.
  Qed.

  Lemma key_trans (n1 n2 n3 : network A) : key_cmp n1 n2 = Lt -> key_cmp n2 n3 = Lt -> key_cmp n1 n3 = Lt.
  Proof.
    rewrite !key_lt. intros [H|[E H]] [H'|[E' H']].
    - left. now apply ord_trans with (base_addr n2).
    - left. now rewrite <- E'.
    - left. now rewrite E.
    - right. split; [congruence|]. now apply ord_trans with (subnet_mask n2).
  Qed.

  Lemma key_eq (n n' : network A) : key_cmp n n' = Eq <-> base_addr n = base_addr n' /\ subnet_mask n = subnet_mask n'.
  Proof.
    unfold key_cmp. split.
    - destruct (acmp (base_addr n) (base_addr n')) eqn:E; try discriminate. intros E'.
      split; now apply ord_eq.
    - intros [-> ->]. now rewrite !ord_refl.
  Qed.

  Lemma key_le_trans (n1 n2 n3 : network A) : key_cmp n1 n2 <> Gt -> key_cmp n2 n3 <> Gt -> key_cmp n1 n3 <> Gt.
  Proof.
    intros H12 H23. destruct (key_cmp n1 n2) eqn:E12; [| |contradiction].
    - apply key_eq in E12. destruct E12 as [E E']. unfold key_cmp in *. now rewrite E, E'.
    - destruct (key_cmp n2 n3) eqn:E23; [| |contradiction].
      + apply key_eq in E23. destruct E23 as [E E']. unfold key_cmp in *. rewrite <- E, <- E'. now rewrite E12.
      + now rewrite (key_trans _ _ _ E12 E23).
  Qed.

  Lemma sort_nets_perm (l : list (network A)) : Permutation (sort_nets l) l.
  Proof. apply sort_by_perm. Qed.

  Lemma sort_nets_sorted (l : list (network A)) :
    StronglySorted (fun n n' => key_cmp n n' <> Gt) (sort_nets l).
  Proof.
    apply Sorted_StronglySorted.
    - intros x y z. apply key_le_trans.
    - apply sort_by_sorted; [apply key_sym|apply key_le_trans].
  Qed.
End Keys.

(** Strictly sorted lists with the same members are equal. *)
Lemma strictly_sorted_ext {X} (lt : X -> X -> Prop) (l l' : list X) :
  (forall x, ~ lt x x) -> (forall x y z, lt x y -> lt y z -> lt x z) ->
  StronglySorted lt l -> StronglySorted lt l' -> (forall x, In x l <-> In x l') -> l = l'.
Proof.
  intros Hirr Htr S. revert l'. induction S as [|x l S IH Hf]; intros l' S' Hin.
  - destruct l' as [|y l']; [reflexivity|]. exfalso. apply (proj2 (Hin y)). now left.
  - inversion S' as [|y l0 S0 Hf']; subst.
    + exfalso. apply (proj1 (Hin x)). now left.
    + rewrite Forall_forall in Hf, Hf'.
      assert (x = y).
      { destruct (proj1 (Hin x) (or_introl eq_refl)) as [|Hx]; [congruence|].
        destruct (proj2 (Hin y) (or_introl eq_refl)) as [|Hy]; [congruence|].
        exfalso. apply (Hirr x). apply Htr with y; auto. }
      subst y. f_equal. apply IH; [assumption|]. intros z. specialize (Hin z). cbn in Hin. split; intros Hz.
      * destruct (proj1 Hin (or_intror Hz)) as [<-|]; [|assumption]. exfalso. apply (Hirr x). auto.
      * destruct (proj2 Hin (or_intror Hz)) as [<-|]; [|assumption]. exfalso. apply (Hirr x). auto.
Qed.
