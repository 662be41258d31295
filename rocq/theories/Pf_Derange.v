(** * Pf_Derange: proofs for P_Derange *)
From Verif Require Import RustBase Addr BitManip Cidr Net Derange Spec Bits Weave Bytes Laws NetFacts SetFacts Family Loops Blocks DerangeFacts Demo.
From Coq Require Import ZifyBool ZifyNat ZifyN.
Ltac Zify.zify_post_hook ::= Z.div_mod_to_equations.

Lemma cidr_iff `{R : Rust} {F} (n : net F) : cidr n <-> exists p, is_cidr n p.
Proof.
  split; [apply cidr_is_cidr|]. intros [p Hp]. now apply is_cidr_cidr in Hp.
Qed.

Lemma cidr_iff_list `{R : Rust} {F} (l : list (net F)) :
  Forall cidr l <-> Forall (fun n => exists p, is_cidr n p) l.
Proof. rewrite !Forall_forall. split; intros H n Hn; apply cidr_iff, H, Hn. Qed.

Lemma member_cidr `{R : Rust} {F} (n : net F) a : cidr n -> valid a -> (member n a <-> mem n a).
Proof. intros [Hn _]. apply wf_okN in Hn. now apply member_wf. Qed.

Section Spec.
  Context (R : Rust) (F : family) (a b : addr F) (Ha : valid a) (Hb : valid b).

  Lemma derange_value :
    let x := N.min (value a) (value b) in let y := N.max (value a) (value b) + 1 in
    0 < x \/ y < 2 ^ width F ->
    if y <? 2 ^ width F
    then exists l, range_to_subnets a b = Ret l /\ tiles x l y /\ Forall (greedy y) l
    else range_to_subnets a b = Panic.
  Proof.
    intros x y. pose proof Ha as Ha'. pose proof Hb as Hb'. apply valid_ok in Ha'. apply valid_ok in Hb'.
    pose proof (derange_spec a b Ha' Hb') as D. cbv zeta in D. rewrite !value_v in D by assumption.
    rewrite width_W. exact D.
  Qed.

  Lemma derange_full :
    N.min (value a) (value b) = 0 -> N.max (value a) (value b) + 1 = 2 ^ width F ->
    (overflow_checks = true -> range_to_subnets a b = Panic) /\
    (overflow_checks = false ->
       range_to_subnets a b = Diverge /\
       exists s0, (forall k, exists s, loop (derange_step (amax a b)) k s0 = Ret (inl s)) /\
               range_to_subnets a b = while (derange_step (amax a b)) s0).
  Proof.
    pose proof Ha as Ha'. pose proof Hb as Hb'. apply valid_ok in Ha'. apply valid_ok in Hb'.
    rewrite <- !value_v by assumption. rewrite width_W. intros H1 H2. split.
    - now apply derange_full_checked.
    - now apply derange_full_unchecked.
  Qed.

  Lemma value_max_lt : N.max (value a) (value b) < 2 ^ width F.
  Proof. pose proof (value_lt a Ha). pose proof (value_lt b Hb). lia. Qed.

  Lemma derange_ret l :
    range_to_subnets a b = Ret l ->
    let x := N.min (value a) (value b) in let y := N.max (value a) (value b) + 1 in
    y < 2 ^ width F /\ tiles x l y /\ Forall (greedy y) l.
  Proof.
    intros E x y. pose proof value_max_lt as Hlt. pose proof derange_value as D. pose proof derange_full as DF.
    fold x y in D, DF. cbv zeta in D. destruct (N.ltb_spec y (2 ^ width F)) as [Hy|Hy].
    - destruct D as (l0 & E0 & Ht & Hg); [now right|]. rewrite E in E0. injection E0 as <-. auto.
    - exfalso. assert (Ey : y = 2 ^ width F) by (unfold y in *; lia).
      destruct (N.eq_0_gt_0_cases x) as [Hx|Hx].
      + destruct (DF Hx Ey) as [D1 D2]. destruct overflow_checks.
        * rewrite D1 in E by reflexivity. discriminate.
        * destruct D2 as [D2 _]; [reflexivity|]. rewrite D2 in E. discriminate.
      + rewrite D in E by now left. discriminate.
  Qed.
End Spec.

Lemma c35_covers_exactly : forall (R : Rust) (F : family) (a b : addr F),
  valid a -> valid b ->
  let lo := N.min (value a) (value b) in
  let hi := N.max (value a) (value b) in
  hi + 1 < 2 ^ width F ->
  exists l, range_to_subnets a b = Ret l /\
    Forall (fun n => exists p, is_cidr n p) l /\
    (forall c : addr F, valid c -> (lo <= value c <= hi <-> exists n, In n l /\ member n c)) /\
    StronglySorted (fun n n' : net F => forall x y, valid x -> valid y ->
                      member n x -> member n' y -> value x < value y) l.
Proof.
  intros R F a b Ha Hb lo hi Hhi. pose proof (derange_value R F a b Ha Hb) as D. cbv zeta in D.
  fold lo hi in D. rewrite (proj2 (N.ltb_lt _ _) Hhi) in D. destruct D as (l & E & Ht & Hg); [now right|].
  exists l. split; [assumption|]. pose proof (tiles_cidr _ _ _ Ht) as Hc.
  split; [now apply cidr_iff_list|]. rewrite Forall_forall in Hc. split.
  - intros c Vc. pose proof (tiles_mem _ _ _ c Ht) as M. rewrite value_v in M by assumption.
    split.
    + intros Hin. destruct M as [M _]. destruct M as (n & Hn & Hm); [lia|].
      exists n. split; [assumption|]. apply member_cidr; auto.
    + intros (n & Hn & Hm). apply member_cidr in Hm; [|auto|assumption].
      assert (lo <= value c < hi + 1) by (apply M; eauto). lia.
  - pose proof (tiles_sorted _ _ _ Ht) as S. clear Ht Hg E. induction S as [|n l S IH Hf]; [constructor|].
    rewrite Forall_forall in Hf. constructor.
    + apply IH. intros; apply Hc; now right.
    + apply Forall_forall. intros n' Hn' x y Vx Vy Mx My.
      pose proof (Hc n (or_introl eq_refl)) as C1. pose proof (Hc n' (or_intror Hn')) as C2.
      apply member_cidr in Mx; [|assumption|assumption]. apply member_cidr in My; [|assumption|assumption].
      apply mem_interval in Mx; [|assumption]. apply mem_interval in My; [|assumption].
      rewrite (value_v x Vx) in Mx. rewrite (value_v y Vy) in My. specialize (Hf n' Hn'). lia.
Qed.

Lemma covers_spec `{R : Rust} {F} (l : list (net F)) x y :
  Forall cidr l ->
  (forall c : addr F, valid c -> (x <= value c <= y <-> exists n, In n l /\ member n c)) ->
  covers l (fun c => x <= v c < y + 1).
Proof.
  intros Hl H c Hc. apply valid_ok in Hc. rewrite value_v by assumption. rewrite Forall_forall in Hl.
  specialize (H c Hc). split.
  - intros Hin. destruct H as [H _]. destruct H as (n & Hn & Hm); [lia|]. exists n. split; [assumption|].
    apply member_cidr; auto.
  - intros (n & Hn & Hm). assert (x <= value c <= y); [|lia]. apply H. exists n. split; [assumption|].
    apply member_cidr; auto.
Qed.

Lemma c36_shortest : forall (R : Rust) (F : family) (a b : addr F) (l l' : list (net F)),
  valid a -> valid b ->
  range_to_subnets a b = Ret l ->
  Forall (fun n => exists p, is_cidr n p) l' ->
  (forall c : addr F, valid c ->
     (N.min (value a) (value b) <= value c <= N.max (value a) (value b) <->
      exists n, In n l' /\ member n c)) ->
  (List.length l <= List.length l')%nat.
Proof.
  intros R F a b l l' Ha Hb E Hl' Hc. destruct (derange_ret R F a b Ha Hb l E) as (_ & Ht & Hg).
  apply cidr_iff_list in Hl'. eapply maximal_shortest.
  - eapply tiles_NoDup, Ht.
  - eapply greedy_maximal; eassumption.
  - assumption.
  - now apply covers_spec.
Qed.

Lemma c36_unique : forall (R : Rust) (F : family) (a b : addr F) (l l' : list (net F)),
  valid a -> valid b ->
  range_to_subnets a b = Ret l ->
  Forall (fun n => exists p, is_cidr n p) l' ->
  (forall c : addr F, valid c ->
     (N.min (value a) (value b) <= value c <= N.max (value a) (value b) <->
      exists n, In n l' /\ member n c)) ->
  (List.length l' <= List.length l)%nat ->
  Permutation l l'.
Proof.
  intros R F a b l l' Ha Hb E Hl' Hc Hlen. destruct (derange_ret R F a b Ha Hb l E) as (_ & Ht & Hg).
  apply cidr_iff_list in Hl'. eapply maximal_shortest_unique.
  - eapply tiles_NoDup, Ht.
  - eapply greedy_maximal; eassumption.
  - assumption.
  - apply covers_spec; eassumption.
  - assumption.
Qed.

Lemma c37_full_range : forall (R : Rust) (F : family) (a b : addr F),
  valid a -> valid b ->
  N.min (value a) (value b) = 0 -> N.max (value a) (value b) = 2 ^ width F - 1 ->
  (overflow_checks = true -> range_to_subnets a b = Panic) /\
  (overflow_checks = false ->
   exists last start, range_to_subnets a b = while (derange_step last) start /\
     forall k, exists s, loop (derange_step last) k start = Ret (inl s)).
Proof.
  intros R F a b Ha Hb Hlo Hhi. destruct (derange_full R F a b Ha Hb Hlo) as [D1 D2].
  { rewrite Hhi. pose proof (pow2_pos (width F)). lia. }
  split; [assumption|]. intros Ho. destruct (D2 Ho) as (_ & s0 & H1 & H2).
  exists (amax a b), s0. split; assumption.
Qed.

Lemma c37_top_panics : forall (R : Rust) (F : family) (a b : addr F),
  valid a -> valid b ->
  0 < N.min (value a) (value b) -> N.max (value a) (value b) = 2 ^ width F - 1 ->
  range_to_subnets a b = Panic.
Proof.
  intros R F a b Ha Hb Hlo Hhi. pose proof (derange_value R F a b Ha Hb) as D. cbv zeta in D.
  pose proof (pow2_pos (width F)). rewrite (proj2 (N.ltb_ge _ _)) in D by lia. apply D. now left.
Qed.

Lemma c37_returns_iff : forall (R : Rust) (F : family) (a b : addr F),
  valid a -> valid b ->
  ((exists l, range_to_subnets a b = Ret l) <->
   N.max (value a) (value b) <> 2 ^ width F - 1).
Proof.
  intros R F a b Ha Hb. pose proof (pow2_pos (width F)). split.
  - intros [l E]. apply derange_ret in E; try assumption. lia.
  - intros Hne. pose proof (derange_value R F a b Ha Hb) as D. cbv zeta in D.
    pose proof (value_max_lt R F a b Ha Hb).
    rewrite (proj2 (N.ltb_lt _ _)) in D by lia. destruct D as (l & E & _); [right; lia|]. eauto.
Qed.

Lemma c37_total_refuted : exists (a b : addr V4),
  valid a /\ valid b /\
  @range_to_subnets debug_env (addr V4) ipv4_ops a b = Panic /\
  @range_to_subnets release_env (addr V4) ipv4_ops a b = Diverge.
Proof.
  exists (ip4 0 0 0 0), (ip4 255 255 255 255). split; [reflexivity|]. split; [reflexivity|]. split.
  - apply (derange_full debug_env V4 (ip4 0 0 0 0) (ip4 255 255 255 255)); reflexivity.
  - apply (derange_full release_env V4 (ip4 0 0 0 0) (ip4 255 255 255 255)); reflexivity.
Qed.

Lemma c38_symmetric : forall (R : Rust) (F : family) (a b : addr F),
  valid a -> valid b -> range_to_subnets a b = range_to_subnets b a.
Proof. intros R F a b Ha Hb. apply derange_comm; now apply valid_ok. Qed.
