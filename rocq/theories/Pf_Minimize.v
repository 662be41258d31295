(** * Pf_Minimize: proofs for P_Minimize *)
From Verif Require Import RustBase Addr BitManip Cidr Net Minimize Spec Bits Weave Bytes Laws NetFacts SetFacts Family Loops Blocks Order MinimizeFacts EnvFacts Demo Pf_Net.
From Coq Require Import ZifyBool ZifyNat ZifyN.
Ltac Zify.zify_post_hook ::= idtac.

Section Bridge.
  Context `{R : Rust} {F : family}.
  Implicit Types (n : net F) (l : list (net F)).

  Lemma wf_list l : Forall wf_net l <-> Forall okN l.
  Proof. rewrite !Forall_forall. split; intros H n Hn; apply wf_okN; auto. Qed.

  Lemma cidr_of_spec n : (exists p, is_cidr n p) <-> cidr n.
  Proof.
    split.
    - intros [p Hp]. now apply is_cidr_cidr in Hp.
    - apply cidr_is_cidr.
  Qed.
  Lemma cidr_list l : Forall (fun n => exists p, is_cidr n p) l <-> Forall cidr l.
  Proof. rewrite !Forall_forall. split; intros H n Hn; apply cidr_of_spec; auto. Qed.

  Lemma cidr_wf_list l : Forall (fun n => exists p, is_cidr n p) l -> Forall wf_net l.
  Proof. intros H. eapply Forall_impl; [|exact H]. intros n [p Hp]. apply Hp. Qed.

  Lemma union_spec l (c : addr F) : Forall wf_net l -> valid c ->
    (union l c <-> exists n, In n l /\ member n c).
  Proof.
    intros Hl Hc. rewrite Forall_forall in Hl. unfold union.
    split; intros (n & Hn & M); exists n; (split; [assumption|]); [apply member_wf|apply member_wf in M]; auto.
  Qed.
End Bridge.

Lemma c40_returns : forall (R : Rust) (F : family) (l : list (net F)),
  Forall wf_net l -> exists r, minimize_subnets l = Ret r /\ Forall wf_net r.
Proof.
  intros R F l Hl. destruct (minimize_spec l (proj1 (wf_list l) Hl)) as (r & E & [Hok _] & _).
  exists r. split; [assumption|]. now apply wf_list.
Qed.

Lemma c39_same_addresses : forall (R : Rust) (F : family) (l : list (net F)),
  Forall wf_net l ->
  exists r, minimize_subnets l = Ret r /\
    forall c : addr F, valid c ->
      ((exists n, In n r /\ member n c) <-> (exists n, In n l /\ member n c)).
Proof.
  intros R F l Hl. destruct (minimize_spec l (proj1 (wf_list l) Hl)) as (r & E & [Hok _] & _ & _ & Hu & _).
  exists r. split; [assumption|]. intros c Hc. apply wf_list in Hok.
  rewrite <- (union_spec r c), <- (union_spec l c) by assumption. apply Hu. now apply valid_ok.
Qed.

Lemma min_inv `{R : Rust} {F} (l r : list (net F)) : Forall wf_net l -> minimize_subnets l = Ret r ->
  okset r /\ StronglySorted (fun n n' => key_cmp n n' = Lt) r /\
      (List.length r <= List.length l)%nat /\
      (forall a, okA a -> (union r a <-> union l a)) /\
      (forall ni nj, In ni r -> In nj r -> ~ partner ni nj) /\
      (Forall cidr l -> Forall cidr r /\ antichain r).
Proof.
  intros Hl E. destruct (minimize_spec l (proj1 (wf_list l) Hl)) as (r' & E' & H).
  rewrite E in E'. injection E' as <-. exact H.
Qed.

Lemma min_cidr_inv `{R : Rust} {F} (l r : list (net F)) :
  Forall (fun n => exists p, is_cidr n p) l -> minimize_subnets l = Ret r ->
  okset r /\ StronglySorted (fun n n' => key_cmp n n' = Lt) r /\
      (forall a, okA a -> (union r a <-> union l a)) /\
      Forall cidr r /\ Forall (maximal (union r)) r /\
      (forall n, cidr n -> inside n (union r) -> exists e, In e r /\ is_superset_of e n = true).
Proof.
  intros Hl E. destruct (minimize_cidr l (proj1 (cidr_list l) Hl)) as (r' & E' & H).
  rewrite E in E'. injection E' as <-. exact H.
Qed.

Lemma c39_not_longer : forall (R : Rust) (F : family) (l r : list (net F)),
  Forall wf_net l -> minimize_subnets l = Ret r -> (List.length r <= List.length l)%nat.
Proof. intros R F l r Hl E. now apply (min_inv l r). Qed.

Lemma c41_irredundant : forall (R : Rust) (F : family) (l r : list (net F)),
  Forall (fun n => exists p, is_cidr n p) l -> minimize_subnets l = Ret r ->
  forall n n', In n r -> In n' r -> share n n' -> n = n'.
Proof.
  intros R F l r Hl E n n' Hn Hn' (a & Ha & M & M').
  destruct (min_inv l r (cidr_wf_list l Hl) E) as (Hok & _ & _ & _ & _ & Hc).
  destruct (Hc (proj1 (cidr_list l) Hl)) as [Cr An]. destruct Hok as [Hok _]. apply wf_list in Hok.
  rewrite Forall_forall in Hok. apply member_wf in M; auto. apply member_wf in M'; auto.
  now apply (antichain_disjoint r n n' a).
Qed.

Definition mixed_nets : list (net V4) :=
  [@new_with_mask (addr V4) ipv4_ops (ip4 0 0 0 0) (ip4 255 255 255 254);
   @new_with_mask (addr V4) ipv4_ops (ip4 0 0 0 2) (ip4 255 255 255 254);
   @new_with_mask (addr V4) ipv4_ops (ip4 0 0 0 0) (ip4 255 255 255 253)].

Lemma new_wf `{R : Rust} {F} (a m : addr F) : valid a -> valid m -> wf_net (@new_with_mask (addr F) _ a m).
Proof. intros Ha Hm. apply wf_okN. apply okN_with_mask; now apply valid_ok. Qed.

Lemma mixed_nets_wf : Forall wf_net mixed_nets.
Proof. repeat (apply Forall_cons; [apply (@new_wf debug_env V4); reflexivity|]). apply Forall_nil. Qed.

Lemma c41_mixed_refuted : exists (l r : list (net V4)) (n n' : net V4),
  Forall wf_net l /\ @minimize_subnets debug_env (addr V4) ipv4_ops l = Ret r /\
  In n r /\ In n' r /\ n <> n' /\ includes n n'.
Proof.
  exists mixed_nets.
  exists [@new_with_mask (addr V4) ipv4_ops (ip4 0 0 0 0) (ip4 255 255 255 252);
          @new_with_mask (addr V4) ipv4_ops (ip4 0 0 0 0) (ip4 255 255 255 253)].
  eexists. eexists. split; [apply mixed_nets_wf|]. split; [vm_compute; reflexivity|].
  split; [now left|]. split; [right; now left|]. split; [vm_compute; discriminate|].
  set (n := @new_with_mask (addr V4) ipv4_ops (ip4 0 0 0 0) (ip4 255 255 255 252)).
  set (n' := @new_with_mask (addr V4) ipv4_ops (ip4 0 0 0 0) (ip4 255 255 255 253)).
  assert (Hn : wf_net n) by (apply (@new_wf debug_env V4); reflexivity).
  assert (Hn' : wf_net n') by (apply (@new_wf debug_env V4); reflexivity).
  assert (S : @is_superset_of (addr V4) ipv4_ops n n' = true) by (vm_compute; reflexivity).
  now apply (c20_superset debug_env V4 n n' Hn Hn').
Qed.

Lemma covers_union `{R : Rust} {F} (l l' : list (net F)) :
  Forall wf_net l -> Forall wf_net l' ->
  (forall c : addr F, valid c ->
     ((exists n, In n l' /\ member n c) <-> (exists n, In n l /\ member n c))) ->
  forall a, okA a -> (union l' a <-> union l a).
Proof.
  intros Hl Hl' H a Ha. apply valid_ok in Ha. rewrite !union_spec by assumption. now apply H.
Qed.

Lemma c42_shortest : forall (R : Rust) (F : family) (l l' r : list (net F)),
  Forall (fun n => exists p, is_cidr n p) l -> minimize_subnets l = Ret r ->
  Forall (fun n => exists p, is_cidr n p) l' ->
  (forall c : addr F, valid c ->
     ((exists n, In n l' /\ member n c) <-> (exists n, In n l /\ member n c))) ->
  Forall (fun n => exists p, is_cidr n p) r /\ (List.length r <= List.length l')%nat.
Proof.
  intros R F l l' r Hl E Hl' H.
  destruct (min_cidr_inv l r Hl E) as ([_ Hnd] & _ & Hu & Hc & Hm & _). split; [now apply cidr_list|].
  pose proof (covers_union l l' (cidr_wf_list l Hl) (cidr_wf_list l' Hl') H) as Hu'.
  apply (maximal_shortest (union r) r l'); try assumption; [now apply cidr_list|].
  intros a Ha. rewrite (Hu a Ha), <- (Hu' a Ha). reflexivity.
Qed.

Lemma c42_in_one : forall (R : Rust) (F : family) (l r : list (net F)) (n : net F) (p : N),
  Forall (fun n => exists p, is_cidr n p) l -> minimize_subnets l = Ret r ->
  is_cidr n p ->
  (forall c : addr F, valid c -> member n c -> exists e, In e l /\ member e c) ->
  exists e, In e r /\ includes e n.
Proof.
  intros R F l r n p Hl E Hn Hi.
  destruct (min_cidr_inv l r Hl E) as ([Hok _] & _ & Hu & Hc & Hm & H1).
  destruct (H1 n) as (e & He & S).
  - apply cidr_of_spec. eauto.
  - intros a Ha M. apply (Hu a Ha). apply valid_ok in Ha. apply union_spec; [now apply cidr_wf_list|assumption|].
    apply Hi; [assumption|]. apply member_wf; [apply Hn|assumption|assumption].
  - exists e. split; [assumption|]. rewrite Forall_forall in Hok.
    rewrite superset_spec in S by (auto; apply wf_okN; apply Hn).
    intros a Ha M. apply member_wf; [now apply wf_okN, Hok|assumption|].
    apply S; [now apply valid_ok|]. apply member_wf; [apply Hn|assumption|assumption].
Qed.

Lemma c44_sorted : forall (R : Rust) (F : family) (l r : list (net F)),
  Forall wf_net l -> minimize_subnets l = Ret r ->
  StronglySorted (fun n n' : net F =>
    value (base_addr n) < value (base_addr n') \/
    value (base_addr n) = value (base_addr n') /\ value (subnet_mask n) < value (subnet_mask n')) r.
Proof.
  intros R F l r Hl E. destruct (min_inv l r Hl E) as ([Hok _] & S & _). apply wf_list in Hok.
  rewrite Forall_forall in Hok. clear E. induction S as [|n s S IH Hf]; constructor.
  - apply IH. intros x Hx. apply Hok. now right.
  - rewrite Forall_forall in *. intros x Hx. specialize (Hf x Hx).
    assert (Hn : wf_net n) by (apply Hok; now left). assert (Hx' : wf_net x) by (apply Hok; now right).
    apply key_cmp_lt in Hf; [|now apply wf_okN|now apply wf_okN].
    rewrite !value_v in Hf by (apply Hn || apply Hx'). exact Hf.
Qed.

(** Running two loops in step. *)
Section LoopRel.
  Context {S T : Type} (step step' : S -> res (S + T)) (Rel : S -> S -> Prop) (RelT : T -> T -> Prop).
  Definition relr (x y : res (S + T)) : Prop :=
    match x, y with
    | Ret (inl a), Ret (inl b) => Rel a b
    | Ret (inr a), Ret (inr b) => RelT a b
    | Panic, Panic => True
    | Diverge, Diverge => True
    | _, _ => False
    end.
  Lemma loop_rel : (forall s s', Rel s s' -> relr (step s) (step' s')) ->
    forall k s s', Rel s s' -> relr (loop step k s) (loop step' k s').
  Proof.
    intros H k. induction k as [|k IH]; intros s s' Hs; cbn [loop]; [auto|].
    specialize (IH s s' Hs) as I1. unfold relr in I1 |- *.
    destruct (loop step k s) as [[a|a]| |], (loop step' k s') as [[b|b]| |]; cbn [bind]; try contradiction; auto.
    now apply IH.
  Qed.
  Lemma while_rel s s' : (forall s s', Rel s s' -> relr (step s) (step' s')) -> Rel s s' ->
    match while step s, while step' s' with
    | Ret a, Ret b => RelT a b
    | Panic, Panic => True
    | Diverge, Diverge => True
    | _, _ => False
    end.
  Proof.
    intros H Hs. unfold while. generalize (loop_rel H fuel_doublings s s' Hs).
    generalize (loop step fuel_doublings s), (loop step' fuel_doublings s').
    intros [[a|a]| |] [[b|b]| |] L; cbn in L |- *; try contradiction; auto.
  Qed.
End LoopRel.

(** Two environments, with abstract address operations. *)
Section Two.
  Context (R R' : Rust) {A : Type} (I I' : IpAddress A) (L : @Laws A I) (L' : @Laws A I')
    (O : @Ordered A I) (O' : @Ordered A I').
  Context (Sm : same_ops I I')
    (okE : forall n, @okN A I L n <-> @okN A I' L' n)
    (nextE : forall n, @okN A I L n -> @next_subnet_base_addr R A I n = @next_subnet_base_addr R' A I' n).
  Implicit Types (f l : list (network A)).

  Lemma okE_list l : Forall (@okN A I L) l <-> Forall (@okN A I' L') l.
  Proof. rewrite !Forall_forall. split; intros H n Hn; apply okE; auto. Qed.

  Lemma sorted_env s s' :
    StronglySorted (fun n n' => @key_cmp A I n n' = Lt) s ->
    StronglySorted (fun n n' => @key_cmp A I' n n' = Lt) s' ->
    (forall x, In x s <-> In x s') -> s = s'.
  Proof.
    intros S S' H. apply (strictly_sorted_ext (fun n n' => @key_cmp A I n n' = Lt)); try assumption.
    - intros x C. pose proof (proj2 (@key_eq A I O x x) (conj eq_refl eq_refl)) as E. rewrite E in C. discriminate.
    - intros x y z. apply (@key_trans A I O).
    - clear -S' Sm. induction S' as [|x s' S' IH Hf]; constructor; [assumption|].
      eapply Forall_impl; [|exact Hf]. intros y Hy. cbv beta in *. now rewrite (key_cmp_env _ _ Sm).
  Qed.

  Lemma sort_env f f' : Forall (@okN A I L) f -> NoDup f -> NoDup f' -> (forall x, In x f <-> In x f') ->
    @sort_nets R A I (@hash_iter R _ f) = @sort_nets R' A I' (@hash_iter R' _ f').
  Proof.
    intros Hf Hnd Hnd' Hin.
    assert (Hf' : Forall (@okN A I' L') f').
    { apply okE_list. rewrite Forall_forall in *. intros n Hn. apply Hf. now apply Hin. }
    destruct (@sorted_set R A I L O f (conj Hf Hnd)) as (I1 & _ & S1 & _).
    destruct (@sorted_set R' A I' L' O' f' (conj Hf' Hnd')) as (I2 & _ & S2 & _).
    apply sorted_env; [assumption|assumption|]. intros x. rewrite I1, I2. apply Hin.
  Qed.

  Definition Rel f f' : Prop := Forall (@okN A I L) f /\ NoDup f /\ NoDup f' /\ forall x, In x f <-> In x f'.

  Lemma step_env f f' : Rel f f' -> relr Rel Rel (@merge_step R A I f) (@merge_step R' A I' f').
  Proof.
    intros (Hf & Hnd & Hnd' & Hin).
    assert (O1 : @okset A I L f) by (split; assumption).
    destruct (@sorted_set R A I L O f O1) as (I1 & [O2 _] & _).
    pose proof (@merge_step_spec R A I L O f O1) as MS.
    unfold merge_step in *. rewrite <- (sort_env f f') by assumption.
    rewrite (merge_i_env R R' _ _ Sm _ _ nextE O2) in MS |- *.
    destruct (@merge_i R' A I' (@sort_nets R A I (@hash_iter R _ f))) as [[[[ni nj] n]|]| |];
      cbn [bind] in MS |- *; unfold relr.
    - assert (E1 : forall x, In x (@set_insert A I n (@set_remove A I nj (@set_remove A I ni f))) <->
                   In x (@set_insert A I' n (@set_remove A I' nj (@set_remove A I' ni f')))).
      { intros x. rewrite !(@In_insert A I L), !(@In_remove A I L), !(@In_insert A I' L'), !(@In_remove A I' L'), Hin. reflexivity. }
      destruct MS as [(ni' & nj' & Hi & Hj & P & E)|[_ E]]; [|discriminate].
      destruct (@merge_pair_ok A I L f ni' nj' O1 Hi Hj P) as [[O3 O4] _].
      assert (E' : @set_insert A I n (@set_remove A I nj (@set_remove A I ni f)) = @merge_pair A I f ni' nj') by congruence.
      split; [rewrite E'; assumption|]. split; [rewrite E'; assumption|]. split; [|exact E1].
      apply (@NoDup_insert A I' L'), MinimizeFacts.NoDup_remove, MinimizeFacts.NoDup_remove, Hnd'.
    - split; [assumption|]. split; [assumption|]. split; assumption.
    - destruct MS as [(ni' & nj' & _ & _ & _ & E)|[_ E]]; discriminate.
    - destruct MS as [(ni' & nj' & _ & _ & _ & E)|[_ E]]; discriminate.
  Qed.

  Lemma first_env l l' : Forall (@okN A I L) l -> (forall n, In n l <-> In n l') ->
    Rel (@first_filter R A I l) (@first_filter R' A I' l').
  Proof.
    intros Hl H.
    assert (Hl' : Forall (@okN A I' L') l').
    { apply okE_list. rewrite Forall_forall in *. intros n Hn. apply Hl. now apply H. }
    assert (X : forall x, In x (@first_filter R A I l) <-> In x (@first_filter R' A I' l')).
    { intros x. rewrite (@first_filter_In R A I L O l Hl), (@first_filter_In R' A I' L' O' l' Hl'), H.
      assert (St : forall n, @strict A I n x <-> @strict A I' n x) by (intros n; unfold strict; now rewrite (superset_env _ _ Sm)).
      split; intros (Hx & Hn); (split; [assumption|]); intros n Hin; specialize (Hn n); rewrite St in *; rewrite H in *; auto. }
    split; [|split; [|split; [|exact X]]].
    - apply Forall_forall. intros x Hx. apply (@first_filter_In R A I L O) in Hx; [|assumption].
      rewrite Forall_forall in Hl. now apply Hl.
    - unfold first_filter. cbv zeta. apply (@eliminate_NoDup A I), (@NoDup_collect A I L). constructor.
    - unfold first_filter. cbv zeta. apply (@eliminate_NoDup A I'), (@NoDup_collect A I' L'). constructor.
  Qed.

  Lemma minimize_env l l' : Forall (@okN A I L) l -> (forall n, In n l <-> In n l') ->
    @minimize_subnets R' A I' l' = @minimize_subnets R A I l.
  Proof.
    intros Hl H. unfold minimize_subnets. fold (@first_filter R A I l). fold (@first_filter R' A I' l').
    pose proof (while_rel _ _ Rel Rel _ _ step_env (first_env l l' Hl H)) as W.
    destruct (while (@merge_step R A I) _) as [f| |],
      (while (@merge_step R' A I') _) as [f'| |]; try contradiction; cbn [bind]; try reflexivity.
    f_equal. destruct W as (Hf & Hnd & Hnd' & Hin). symmetry. now apply sort_env.
  Qed.
End Two.

Section Two2.
  Context (R R' : Rust) {F : family}.
  Notation O := (@addr_ops R F).
  Notation O' := (@addr_ops R' F).

  Lemma nv_env (m a : addr F) : valid m -> valid a -> @nv (addr F) O m a = @nv (addr F) O' m a.
  Proof.
    intros Hm Ha. unfold nv, nb.
    rewrite <- (@abits_bts R F m Hm), <- (@abits_bts R' F m Hm), <- (@abits_bts R F a Ha), <- (@abits_bts R' F a Ha). reflexivity.
  Qed.
  Lemma hv_env (m a : addr F) : valid m -> valid a -> @hv (addr F) O m a = @hv (addr F) O' m a.
  Proof.
    intros Hm Ha. unfold hv, hb.
    rewrite <- (@abits_bts R F m Hm), <- (@abits_bts R' F m Hm), <- (@abits_bts R F a Ha), <- (@abits_bts R' F a Ha). reflexivity.
  Qed.
  Lemma kt_env (m : addr F) : valid m -> @kt (addr F) O m = @kt (addr F) O' m.
  Proof.
    intros Hm. unfold kt. rewrite <- (@abits_bts R F m Hm), <- (@abits_bts R' F m Hm). reflexivity.
  Qed.

  Lemma next_env (n : net F) : wf_net n ->
    @next_subnet_base_addr R (addr F) O n = @next_subnet_base_addr R' (addr F) O' n.
  Proof.
    intros Hn. pose proof (@next_base_spec R (addr F) O _ n (proj1 (@wf_okN R F n) Hn)) as N1.
    pose proof (@next_base_spec R' (addr F) O' _ n (proj1 (@wf_okN R' F n) Hn)) as N2.
    pose proof (wf_base n Hn) as Hb. pose proof (wf_mask n Hn) as Hm.
    rewrite (nv_env _ _ Hm Hb), (kt_env _ Hm) in N1.
    destruct (_ <? _).
    - destruct N1 as (a & E & Ha & V1 & Z1), N2 as (a' & E' & Ha' & V1' & Z1'). rewrite E, E'. do 2 f_equal.
      apply (@valid_ok R F) in Ha as Va. apply (@valid_ok R' F) in Ha' as Va'.
      rewrite (nv_env _ _ Hm Va) in V1. rewrite (hv_env _ _ Hm Va) in Z1.
      apply (@nv_hv_inj (addr F) O' _ (subnet_mask n)).
      + now apply (@valid_ok R' F).
      + exact Ha'.
      + exact (eq_trans V1 (eq_sym V1')).
      + exact (eq_trans Z1 (eq_sym Z1')).
    - exact (eq_trans N1 (eq_sym N2)).
  Qed.
End Two2.

Lemma c44_deterministic : forall (R R' : Rust) (F : family) (l l' : list (net F)),
  Forall wf_net l -> (forall n, In n l <-> In n l') ->
  @minimize_subnets R' (addr F) (@addr_ops R' F) l' = @minimize_subnets R (addr F) (@addr_ops R F) l.
Proof.
  intros R R' F l l' Hl H.
  apply (minimize_env R R' (@addr_ops R F) (@addr_ops R' F) _ _ _ _ (ops_env R R' F)).
  - intros n. split; intros Hn.
    + apply (@wf_okN R' F). now apply (@wf_okN R F).
    + apply (@wf_okN R F). now apply (@wf_okN R' F).
  - intros n Hn. apply next_env. now apply (@wf_okN R F).
  - now apply (@wf_list R F).
  - exact H.
Qed.

Lemma canonical_same (R : Rust) (F : family) (l l' : list (net F)) :
  Forall (fun n => exists p, is_cidr n p) l -> Forall (fun n => exists p, is_cidr n p) l' ->
  (forall c : addr F, valid c ->
     ((exists n, In n l' /\ member n c) <-> (exists n, In n l /\ member n c))) ->
  minimize_subnets l' = minimize_subnets l.
Proof.
  intros Hl Hl' H.
  destruct (c40_returns R F l (cidr_wf_list l Hl)) as (r & E & _).
  destruct (c40_returns R F l' (cidr_wf_list l' Hl')) as (r' & E' & _).
  rewrite E, E'. f_equal.
  destruct (min_cidr_inv l r Hl E) as (_ & S & Hu & _ & Hm & _).
  destruct (min_cidr_inv l' r' Hl' E') as (_ & S' & Hu' & _ & Hm' & _).
  pose proof (covers_union l l' (cidr_wf_list l Hl) (cidr_wf_list l' Hl') H) as Hu2.
  assert (Hu3 : forall a, okA a -> (union r' a <-> union r a)).
  { intros a Ha. rewrite (Hu' a Ha), (Hu a Ha). now apply Hu2. }
  apply (strictly_sorted_ext (fun n n' => key_cmp n n' = Lt)); try assumption.
  - intros x C. pose proof (proj2 (key_eq x x) (conj eq_refl eq_refl)) as E0. rewrite E0 in C. discriminate.
  - intros x y z. apply key_trans.
  - assert (Hm2 : Forall (maximal (union r)) r').
    { eapply Forall_impl; [|exact Hm']. intros n. now apply maximal_ext. }
    intros x. split.
    + apply (maximal_incl (union r) r' r); try assumption. intros a Ha. reflexivity.
    + apply (maximal_incl (union r) r r'); try assumption. intros a Ha. symmetry. now apply Hu3.
Qed.

Lemma c43_canonical : forall (R R' : Rust) (F : family) (l l' : list (net F)),
  Forall (fun n => exists p, is_cidr n p) l -> Forall (fun n => exists p, is_cidr n p) l' ->
  (forall c : addr F, valid c ->
     ((exists n, In n l' /\ member n c) <-> (exists n, In n l /\ member n c))) ->
  @minimize_subnets R' (addr F) (@addr_ops R' F) l' = @minimize_subnets R (addr F) (@addr_ops R F) l.
Proof.
  intros R R' F l l' Hl Hl' H. etransitivity.
  - apply (c44_deterministic R R' F l' l'); [|reflexivity]. exact (@cidr_wf_list F l' Hl').
  - exact (canonical_same R F l l' Hl Hl' H).
Qed.

Lemma c45_idempotent : forall (R : Rust) (F : family) (l r : list (net F)),
  Forall (fun n => exists p, is_cidr n p) l -> minimize_subnets l = Ret r ->
  minimize_subnets r = Ret r.
Proof.
  intros R F l r Hl E. destruct (min_cidr_inv l r Hl E) as ([Hok _] & _ & Hu & Hc & _).
  apply wf_list in Hok. apply cidr_list in Hc.
  rewrite (c43_canonical R R F l r Hl Hc); [assumption|].
  intros c Vc. pose proof (proj1 (valid_ok c) Vc) as Oc. specialize (Hu c Oc).
  rewrite !union_spec in Hu by (try assumption; now apply cidr_wf_list). exact Hu.
Qed.

Lemma c45_mixed_refuted : exists (l r : list (net V4)),
  Forall wf_net l /\ @minimize_subnets debug_env (addr V4) ipv4_ops l = Ret r /\
  @minimize_subnets debug_env (addr V4) ipv4_ops r <> Ret r.
Proof.
  exists mixed_nets. eexists. split; [apply mixed_nets_wf|]. split; [vm_compute; reflexivity|].
  vm_compute. discriminate.
Qed.
