(** * EnvFacts: functions that do not depend on the environment *)
From Verif Require Import RustBase Addr Cidr BitManip Net Minimize Spec.

(** Two sets of address operations that agree where overflow checks play no role. *)
Record same_ops {A} (I I' : IpAddress A) : Prop := {
  same_cmp : forall a b, @acmp A I a b = @acmp A I' a b;
  same_eqb : forall a b, @aeqb A I a b = @aeqb A I' a b;
  same_and : forall a b, @band A I a b = @band A I' a b;
  same_xor : forall a b, @bxor A I a b = @bxor A I' a b;
  same_neg : forall a, @bitwise_negate A I a = @bitwise_negate A I' a;
  same_ones : forall a, @count_ones A I a = @count_ones A I' a;
  same_bytes : forall a, @to_bytes A I a = @to_bytes A I' a
}.

Lemma ops_env (R R' : Rust) (F : family) : same_ops (@addr_ops R F) (@addr_ops R' F).
Proof.
  destruct F; constructor; intros; cbn [acmp aeqb band bxor bitwise_negate count_ones to_bytes addr_ops ipv4_ops ipv6_ops]; reflexivity.
Qed.

Section Env.
  Context (R R' : Rust) {A : Type} (I I' : IpAddress A) (S : same_ops I I').

  Lemma with_mask_env a m : @new_with_mask A I a m = @new_with_mask A I' a m.
  Proof. unfold new_with_mask. now rewrite (same_and _ _ S), (same_bytes _ _ S). Qed.
  Lemma superset_env n n' : @is_superset_of A I n n' = @is_superset_of A I' n n'.
  Proof. unfold is_superset_of. now rewrite !(same_and _ _ S), !(same_eqb _ _ S). Qed.
  Lemma net_eqb_env n n' : @net_eqb A I n n' = @net_eqb A I' n n'.
  Proof. unfold net_eqb. now rewrite !(same_eqb _ _ S). Qed.
  Lemma key_cmp_env n n' : @key_cmp A I n n' = @key_cmp A I' n n'.
  Proof. unfold key_cmp. now rewrite !(same_cmp _ _ S). Qed.

  Lemma merge_j_env ni l :
    @next_subnet_base_addr R A I ni = @next_subnet_base_addr R' A I' ni ->
    @merge_j R A I ni l = @merge_j R' A I' ni l.
  Proof.
    intros Hn. induction l as [|nj l IH]; [reflexivity|]. cbn [merge_j]. rewrite IH, Hn.
    rewrite (same_eqb _ _ S), (same_xor _ _ S), (same_ones _ _ S), (same_and _ _ S), (same_neg _ _ S), with_mask_env, !superset_env.
    destruct (negb _); [reflexivity|]. destruct (@next_subnet_base_addr R' A I' ni) as [[x|]| |]; cbn [bind]; try reflexivity.
    now rewrite (same_eqb _ _ S).
  Qed.
  Lemma merge_i_env (P : network A -> Prop) l :
    (forall n, P n -> @next_subnet_base_addr R A I n = @next_subnet_base_addr R' A I' n) ->
    Forall P l -> @merge_i R A I l = @merge_i R' A I' l.
  Proof.
    intros Hn. induction l as [|n l IH]; intros Hl; [reflexivity|]. inversion Hl; subst. cbn [merge_i].
    rewrite merge_j_env, IH by auto. reflexivity.
  Qed.
End Env.
