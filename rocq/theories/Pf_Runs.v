(** * Pf_Runs: proofs for P_Runs *)
From Verif Require Import RustBase Addr BitManip Net Parse Console ShowNet Main Spec SpecText SpecIO SpecShow SpecMain Demo
  Bits Weave Bytes Laws NetFacts SetFacts Family TextFacts Blocks Order DerangeFacts SplitFacts ResizeFacts EnvFacts Pf_Addr Pf_Bits Pf_Net Pf_Netspec Pf_Minimize Pf_Derange
  Pf_Split Pf_Resize Pf_Enum Pf_Show Pf_Main Pf_Compose.
From Coq Require Import ZifyBool ZifyNat ZifyN.
Ltac Zify.zify_post_hook ::= idtac.

(** ** Parsing does not depend on the environment *)
Lemma usize_sub_env (R R' : Rust) a b : (a <? b) = false -> @usize_sub R a b = @usize_sub R' a b.
Proof. intros H. unfold usize_sub. now rewrite H. Qed.

Lemma with_prefix_env (R R' : Rust) (a : ipv6) p : @new_with_prefix ipv6 (@ipv6_ops R) a p = @new_with_prefix ipv6 (@ipv6_ops R') a p.
Proof. unfold new_with_prefix. cbn [byte_count from_bytes band ipv6_ops]. reflexivity. Qed.
Lemma with_mask_env6 (R R' : Rust) (a m : ipv6) : @new_with_mask ipv6 (@ipv6_ops R) a m = @new_with_mask ipv6 (@ipv6_ops R') a m.
Proof. unfold new_with_mask. cbn [to_bytes band ipv6_ops]. reflexivity. Qed.

Lemma parse_env (R R' : Rust) s : @usize_bits R = @usize_bits R' -> @parse_netspec R s = @parse_netspec R' s.
Proof.
  intros Hw. assert (@usize_max R = @usize_max R') as Em by (unfold usize_max; now rewrite Hw).
  unfold parse_netspec.
  destruct (captures IPV4_WITH_SUBNET_REGEX s) as [caps|]; [reflexivity|].
  destruct (captures IPV4_WITH_CIDR_REGEX s) as [caps|].
  { destruct (unwrap (cap_name "addr" caps)) as [x| |]; cbn [bind]; [|reflexivity..].
    destruct (unwrap (cap_name "cidr" caps)) as [y| |]; cbn [bind]; [|reflexivity..].
    destruct (v4_from_str x); [|reflexivity]. rewrite Em. destruct (parse_uint 10 usize_max y) as [c|]; [|reflexivity].
    destruct (32 <? c) eqn:E; [reflexivity|]. destruct (is_some _); [|reflexivity].
    now rewrite (usize_sub_env R R') by exact E. }
  destruct (captures IPV6_WITH_SUBNET_REGEX s) as [caps|].
  { destruct (unwrap (cap_name "addr" caps)) as [x| |]; cbn [bind]; [|reflexivity..].
    destruct (unwrap (cap_name "mask" caps)) as [y| |]; cbn [bind]; [|reflexivity..].
    destruct (v6_from_str x) as [[a|e]| |]; cbn [bind]; [|reflexivity..].
    destruct (v6_from_str y) as [[m|e]| |]; cbn [bind]; [|reflexivity..].
    rewrite (with_mask_env6 R R'). cbn [bitwise_negate ipv6_ops]. reflexivity. }
  destruct (captures IPV6_WITH_CIDR_REGEX s) as [caps|]; [|reflexivity].
  destruct (unwrap (cap_name "addr" caps)) as [x| |]; cbn [bind]; [|reflexivity..].
  destruct (unwrap (cap_name "cidr" caps)) as [y| |]; cbn [bind]; [|reflexivity..].
  destruct (v6_from_str x) as [[a|e]| |]; cbn [bind]; [|reflexivity..].
  rewrite Em. destruct (parse_uint 10 usize_max y) as [c|]; [|reflexivity].
  destruct (128 <? c) eqn:E; [reflexivity|]. destruct (is_some _).
  - rewrite (usize_sub_env R R') by exact E. destruct (usize_sub 128 c); cbn [bind]; [|reflexivity..]; now rewrite (with_prefix_env R R').
  - cbn [bind]. now rewrite (with_prefix_env R R').
Qed.

Lemma subnet_env (R R' : Rust) s : @usize_bits R = @usize_bits R' -> @parse_subnet R s = @parse_subnet R' s.
Proof. intros Hw. unfold parse_subnet, usize_max. now rewrite Hw. Qed.

Lemma display_env (R R' : Rust) (F : family) (a : addr F) :
  @display (addr F) (@addr_ops R F) a = @display (addr F) (@addr_ops R' F) a.
Proof. destruct F; cbn [display addr_ops ipv4_ops ipv6_ops]; reflexivity. Qed.
Lemma net_display_env (R R' : Rust) (F : family) (n : net F) :
  @net_display (addr F) (@addr_ops R F) n = @net_display (addr F) (@addr_ops R' F) n.
Proof. destruct F; unfold net_display; cbn [display addr_ops ipv4_ops ipv6_ops]; reflexivity. Qed.

(** ** Results of the commands *)
Lemma range_env (R R' : Rust) (F : family) (a b : addr F) l :
  valid a -> valid b -> @range_to_subnets R (addr F) (@addr_ops R F) a b = Ret l ->
  @range_to_subnets R' (addr F) (@addr_ops R' F) a b = Ret l.
Proof.
  intros Ha Hb E.
  assert (Hi : N.max (value a) (value b) + 1 < 2 ^ width F).
  { pose proof (proj1 (c37_returns_iff R F a b Ha Hb) (ex_intro _ l E)).
    pose proof (value_lt a Ha). pose proof (value_lt b Hb). lia. }
  destruct (c35_covers_exactly R F a b Ha Hb Hi) as (l0 & E0 & Hc & _). rewrite E in E0. injection E0 as <-.
  destruct (c35_covers_exactly R' F a b Ha Hb Hi) as (l' & E' & Hc' & _). rewrite E'. f_equal.
  pose proof (c64_derange R F a b l l Ha Hb E ltac:(reflexivity)) as M.
  pose proof (c64_derange R' F a b l' l' Ha Hb E' ltac:(reflexivity)) as M'.
  destruct (c35_covers_exactly R F a b Ha Hb Hi) as (l0 & E0 & _ & U & _). rewrite E in E0. injection E0 as <-.
  destruct (c35_covers_exactly R' F a b Ha Hb Hi) as (l0 & E0 & _ & U' & _). rewrite E' in E0. injection E0 as <-.
  rewrite (c43_canonical R R' F l l' Hc Hc') in M'; [congruence|]. intros c Vc. now rewrite <- (U c Vc), <- (U' c Vc).
Qed.

Lemma same_mask_share {F} (R : Rust) (e e' : net F) : wf_net e -> wf_net e' -> subnet_mask e' = subnet_mask e ->
  member e' (base_addr e) -> e' = e.
Proof.
  intros We We' Em M. apply (c21_extensionality R F); try assumption.
  intros a Va. unfold member in *. rewrite Em in *. split; intros H i Hi Ht; specialize (H i Hi Ht); specialize (M i Hi Ht); congruence.
Qed.

Lemma same_place {F} (R : Rust) (m : addr F) (n n' : net F) : wf_net n -> wf_net n' -> valid m -> subnet_mask n = m -> subnet_mask n' = m ->
  position m (base_addr n') = position m (base_addr n) -> n' = n.
Proof.
  intros Hn Hn' Hm En En' P. pose proof (wf_base n Hn). pose proof (wf_base n' Hn').
  rewrite !position_rk in P by assumption. apply wf_okN in Hn, Hn'. apply (host_in_place (R := R)); congruence.
Qed.

Lemma resize_env (R R' : Rust) (F : family) (n : net F) (m : addr F) : wf_net n -> valid m ->
  @resize_network R (addr F) (@addr_ops R F) n m = @resize_network R' (addr F) (@addr_ops R' F) n m.
Proof.
  intros Hn Hm. destruct (N.lt_trichotomy (host_bits (subnet_mask n)) (host_bits m)) as [H|[H|H]].
  - destruct (c52_supernet R F n m Hn Hm H) as (x & -> & Wx & Ex & Px).
    destruct (c52_supernet R' F n m Hn Hm H) as (y & -> & Wy & Ey & Py).
    do 3 f_equal. apply (same_place R m); try assumption. congruence.
  - destruct (c54_same_size R F n m Hn Hm (eq_sym H)) as (x & -> & Wx & Ex & Px).
    destruct (c54_same_size R' F n m Hn Hm (eq_sym H)) as (y & -> & Wy & Ey & Py).
    do 3 f_equal. apply (same_place R m); try assumption. congruence.
  - destruct (c53_subnets R F n m Hn Hm H) as (l & -> & _ & Hl & Hu & Hs).
    destruct (c53_subnets R' F n m Hn Hm H) as (l' & -> & _ & Hl' & Hu' & Hs').
    do 2 f_equal. rewrite Forall_forall in Hl, Hl'.
    apply (strictly_sorted_ext (fun e e' : net F => value (base_addr e) < value (base_addr e'))).
    + intros x Hx. lia.
    + intros x y z H1 H2. lia.
    + revert Hs. apply StronglySorted_impl. intros x y _ _ Hxy. apply Hxy.
    + revert Hs'. apply StronglySorted_impl. intros x y _ _ Hxy. apply Hxy.
    + intros e. split; intros He.
      * destruct (Hl e He) as [We Ee]. pose proof (wf_base e We) as Vb.
        destruct (proj2 (Hu' (base_addr e) Vb)) as (e' & He' & M').
        { apply (Hu (base_addr e) Vb). exists e. split; [exact He|apply member_base]. }
        destruct (Hl' e' He') as [We' Ee']. rewrite <- (same_mask_share R e e'); [assumption..|congruence|assumption].
      * destruct (Hl' e He) as [We Ee]. pose proof (wf_base e We) as Vb.
        destruct (proj2 (Hu (base_addr e) Vb)) as (e' & He' & M').
        { apply (Hu' (base_addr e) Vb). exists e. split; [exact He|apply member_base]. }
        destruct (Hl e' He') as [We' Ee']. rewrite <- (same_mask_share R e e'); [assumption..|congruence|assumption].
Qed.

(** ** The report *)
Lemma count_once {F} (n : net F) k k' : count n k -> count n k' -> k = k'.
Proof.
  intros (l & Hl & Hi & <-) (l' & Hl' & Hi' & <-). f_equal.
  apply Nat.le_antisymm; apply NoDup_incl_length; try assumption; intros a Ha; [apply Hi', Hi, Ha|apply Hi, Hi', Ha].
Qed.
Lemma highest_once {F} (R : Rust) (n : net F) h h' : highest n h -> highest n h' -> h = h'.
Proof.
  intros (V & M & H) (V' & M' & H'). apply (value_inj (R := R)); [assumption..|]. pose proof (H h' V' M'). pose proof (H' h V M). lia.
Qed.
Lemma lowest_once {F} (R : Rust) (n : net F) h h' : lowest n h -> lowest n h' -> h = h'.
Proof.
  intros (V & M & H) (V' & M' & H'). apply (value_inj (R := R)); [assumption..|]. pose proof (H h' V' M'). pose proof (H' h V M). lia.
Qed.
Lemma broadcast_once {F} (R : Rust) (n : net F) o o' : broadcast_of n o -> broadcast_of n o' -> o = o'.
Proof.
  intros (k & C & H) (k' & C' & H'). pose proof (count_once n k k' C C') as <-.
  destruct o as [b|], o' as [b'|]; try lia; [|reflexivity]. f_equal. now apply (highest_once R n).
Qed.
Lemma between {F} (n : net F) k l h : count n k -> 4 <= k -> exists c, valid c /\ member n c /\ c <> l /\ c <> h.
Proof.
  intros (L & Nd & Hi & E) Hk.
  assert (D : forall x y : addr F, {x = y} + {x <> y}).
  { intros x y. destruct F; decide equality; apply N.eq_dec. }
  set (L' := remove D l (remove D h L)).
  assert (exists c, In c L') as (c & Hc).
  { destruct L' as [|c L0] eqn:EL; [|exists c; now left]. exfalso.
    assert (incl L [l; h]).
    { intros x Hx. destruct (D x l) as [->|H1]; [now left|]. destruct (D x h) as [->|H2]; [right; now left|].
      assert (In x L') as Hin; [|rewrite EL in Hin; destruct Hin]. unfold L'. apply in_in_remove; [assumption|]. now apply in_in_remove. }
    apply (NoDup_incl_length Nd) in H. cbn [List.length] in H. lia. }
  unfold L' in Hc. apply in_remove in Hc. destruct Hc as [Hc H1]. apply in_remove in Hc. destruct Hc as [Hc H2].
  apply Hi in Hc. exists c. tauto.
Qed.
Lemma host_range_once {F} (R : Rust) (n : net F) o o' : host_range n o -> host_range n o' -> o = o'.
Proof.
  intros (k & C & H) (k' & C' & H'). pose proof (count_once n k k' C C') as <-.
  destruct o as [[x y]|], o' as [[x' y']|]; try lia; [|reflexivity].
  destruct H as (Hk & l & h & Hl & Hh & Vx & Mx & Lx & Vy & My & Ly & B).
  destruct H' as (_ & l' & h' & Hl' & Hh' & Vx' & Mx' & Lx' & Vy' & My' & Ly' & B').
  pose proof (lowest_once R n l l' Hl Hl') as <-. pose proof (highest_once R n h h' Hh Hh') as <-.
  destruct (between n k l h C Hk) as (c & Vc & Mc & Nl & Nh).
  assert (Hc : value l < value c < value h).
  { destruct Hl as (Vl & Ml & Hl). destruct Hh as (Vh & Mh & Hh). specialize (Hl c Vc Mc). specialize (Hh c Vc Mc).
    assert (value l <> value c) by (intros E; apply Nl; symmetry; now apply (value_inj (R := R))).
    assert (value c <> value h) by (intros E; apply Nh; now apply (value_inj (R := R))). lia. }
  destruct (B c Vc Mc) as [->|[->|Bc]]; [lia..|]. destruct (B' c Vc Mc) as [->|[->|Bc']]; [lia..|].
  f_equal. f_equal; apply (value_inj (R := R)); try assumption.
  - destruct (B x' Vx' Mx') as [->|[->|H1]]; [lia..|]. destruct (B' x Vx Mx) as [->|[->|H2]]; lia.
  - destruct (B y' Vy' My') as [->|[->|H1]]; [lia..|]. destruct (B' y Vy My) as [->|[->|H2]]; lia.
Qed.
Lemma class_once {F} (n : net F) o o' : wf_net n -> class_of F n o -> class_of F n o' -> o = o'.
Proof.
  intros Wn. destruct F; cbn [class_of]; [|congruence]. destruct o as [t|], o' as [t'|]; intros H H'; try reflexivity.
  - f_equal. rewrite <- (H (base_addr n)), <- (H' (base_addr n)); try reflexivity; first [apply wf_base, Wn|apply member_base].
  - now apply H' in H.
  - now apply H in H'.
Qed.

Lemma c67_described_once : forall (R : Rust) (F : family) (n : net F) (a : option (addr F)) (ms ms' : list mark),
  wf_net n -> described n a ms -> described n a ms' -> ms = ms'.
Proof.
  intros R F n a ms ms' Wn (ho & bc & k & cl & H1 & H2 & H3 & H4 & ->) (ho' & bc' & k' & cl' & H1' & H2' & H3' & H4' & ->).
  rewrite (host_range_once R n ho' ho H1' H1), (broadcast_once R n bc' bc H2' H2), (count_once n k' k H3' H3), (class_once n cl' cl Wn H4' H4).
  reflexivity.
Qed.

Lemma described_env (R R' : Rust) (F : family) (n : net F) a ms : @described R F n a ms -> @described R' F n a ms.
Proof.
  intros (ho & bc & k & cl & H1 & H2 & H3 & H4 & ->). exists ho, bc, k, cl. do 4 (split; [assumption|]).
  clear. destruct F; unfold report, masked_row, row; cbn [display bitwise_negate addr_ops ipv4_ops ipv6_ops]; reflexivity.
Qed.
Lemma described_same (R R' : Rust) (F : family) (n : net F) a ms ms' :
  wf_net n -> @described R F n a ms -> @described R' F n a ms' -> ms' = ms.
Proof. intros Wn H H'. apply (described_env R' R) in H'. exact (c67_described_once R F n a ms' ms Wn H' H). Qed.
Lemma described_list_same (R R' : Rust) (F : family) (l : list (net F)) mss : forall mss',
  Forall wf_net l -> Forall2 (fun e ms => @described R F e None ms) l mss -> Forall2 (fun e ms => @described R' F e None ms) l mss' -> mss' = mss.
Proof.
  intros mss' W H. revert mss' W. induction H as [|e ms l mss He H IH]; intros mss' W H'; inversion H' as [|? ms' ? mss0 He' H0]; subst; [reflexivity|].
  inversion W; subst. f_equal; [now apply (described_same R R' F e None)|now apply IH].
Qed.

(** ** Whole runs *)
Definition no_ties (args : list str) : Prop :=
  forall prog w s ss cs, args = prog :: w :: s :: ss -> In w split_words -> counts_text ss cs -> NoDup cs.
(** The same but for the wording of problems. *)
Definition agreeing (ms ms' : list mark) : Prop := Forall2 (fun m m' => m' = m \/ exists e e', m = Problem e /\ m' = Problem e') ms ms'.
Definition alike (R R' : Rust) (ms ms' : list mark) : Prop := agreeing ms ms' /\ (@usize_bits R = @usize_bits R' -> ms' = ms).
Definition same (R R' : Rust) (args : list str) : Prop :=
  exists ms ms' z, @does R args ms z /\ @does R' args ms' z /\ (no_ties args -> alike R R' ms ms').
Lemma agreeing_refl ms : agreeing ms ms.
Proof. induction ms; constructor; auto. Qed.
Lemma alike_refl R R' ms : alike R R' ms ms.
Proof. split; [apply agreeing_refl|reflexivity]. Qed.
Lemma alike_app R R' a a' b b' : alike R R' a a' -> alike R R' b b' -> alike R R' (a ++ b) (a' ++ b').
Proof. intros [H E] [H' E']. split; [now apply Forall2_app|]. intros Hw. now rewrite (E Hw), (E' Hw). Qed.
Lemma alike_problem R R' e e' : (@usize_bits R = @usize_bits R' -> e' = e) -> alike R R' [Problem e] [Problem e'].
Proof. intros H. split; [constructor; [right; eauto|constructor]|]. intros Hw. now rewrite (H Hw). Qed.
Lemma same_alike (R R' : Rust) args ms ms' z : @does R args ms z -> @does R' args ms' z -> alike R R' ms ms' -> same R R' args.
Proof. intros H H' E. exists ms, ms', z. auto. Qed.
Lemma same_by (R R' : Rust) args ms ms' z : @does R args ms z -> @does R' args ms' z -> ms' = ms -> same R R' args.
Proof. intros H H' ->. apply (same_alike R R' args ms ms z H H'), alike_refl. Qed.

Lemma same_usage (R R' : Rust) args :
  (List.length args < 2)%nat \/
  (exists prog w rest, args = prog :: w :: rest /\
     ((In w derange_words \/ In w resize_words) /\ List.length rest <> 2%nat \/
      In w split_words /\ (List.length rest < 2)%nat \/
      (In w minimize_words \/ In w enumerate_words) /\ rest = [])) -> same R R' args.
Proof. intros H. apply (same_by R R' args [Problem MsgUsage] [Problem MsgUsage] 1%Z); [now apply (c62_usage R)|now apply (c62_usage R')|reflexivity]. Qed.

(** Errors of the parser are the same. *)
Lemma error_same (R R' : Rust) s e e' : @parse_netspec R s = Ret (RErr e) -> @parse_netspec R' s = Ret (RErr e') ->
  @usize_bits R = @usize_bits R' -> e' = e.
Proof. intros H H' Hw. rewrite (parse_env R R' s Hw) in H. congruence. Qed.
Ltac parse_same R R' :=
  match goal with
  | H : @parse_netspec R ?s = Ret (RErr ?e), H' : @parse_netspec R' ?s = Ret (RErr ?e') |- _ =>
      pose proof (error_same R R' s e e' H H')
  end.
Ltac problem_same := apply alike_problem; intros Hword; f_equal; auto.

Lemma same_minimize (R R' : Rust) prog w rest : In w minimize_words -> same R R' (prog :: w :: rest).
Proof.
  intros Hw. destruct (specs_cases R rest) as [(-> & _)|[(F & l & Hne & H & K)|[(F & e & pre & s & post & -> & E & Hp & _)|(F & G & pre & s & post & HF & Hne & -> & (a & n & E) & Hp & K)]]].
  - apply same_usage. right. exists prog, w, []. split; [reflexivity|]. right. right. split; [now left|reflexivity].
  - assert (M : Forall2 (fun s an => means F s (fst an) (snd an)) rest l).
    { clear -H. induction H as [|s an ss l Hs H IH]; [constructor|]. constructor; [now apply (parse_means R)|exact IH]. }
    destruct (c62_minimize R F prog w rest l Hw Hne M) as (r & E & D).
    destruct (c62_minimize R' F prog w rest l Hw Hne M) as (r' & E' & D').
    apply (same_by R R' _ _ _ _ D D').
    assert (Wl : Forall wf_net (map snd l)).
    { clear -R M. induction M as [|s an ss l Hs M IH]; [constructor|]. cbn [map]. constructor; [apply (means_wf R F s _ _ Hs)|exact IH]. }
    rewrite (c44_deterministic R R' F (map snd l) (map snd l) Wl ltac:(reflexivity)), E in E'. injection E' as <-.
    apply map_ext. intros e. now rewrite (net_display_env R' R).
  - assert (Forall (of_family F) pre) as Hp'.
    { eapply Forall_impl; [|exact Hp]. intros t (a & n & Ht). exists a, n. now apply (parse_means R). }
    assert (nonsense s) as Ns by (apply (parse_nonsense R); eauto).
    destruct (proj1 (c62_minimize_error R F prog w pre post s Hw Hp') Ns) as (e1 & E1 & D).
    destruct (proj1 (c62_minimize_error R' F prog w pre post s Hw Hp') Ns) as (e2 & E2 & D').
    parse_same R R'. apply (same_alike R R' _ _ _ _ D D'). problem_same.
  - assert (Forall (of_family F) pre) as Hp'.
    { eapply Forall_impl; [|exact Hp]. intros t (a' & n' & Ht). exists a', n'. now apply (parse_means R). }
    assert (of_family G s) as Hs by (exists a, n; now apply (parse_means R)).
    assert (G <> F) as HG by congruence.
    exact (same_by R R' _ _ _ _ (proj2 (c62_minimize_error R F prog w pre post s Hw Hp') Hne G HG Hs)
      (proj2 (c62_minimize_error R' F prog w pre post s Hw Hp') Hne G HG Hs) eq_refl).
Qed.

Ltac addr_same :=
  match goal with
  | H : parse_addr ?s = Ret (RErr ?e), H' : parse_addr ?s = Ret (RErr ?e') |- _ =>
      let E := fresh in assert (E : e' = e) by congruence; subst e'
  end.

Lemma same_derange (R R' : Rust) prog w rest : In w derange_words ->
  same R R' (prog :: w :: rest) \/ derange_to_top (prog :: w :: rest).
Proof.
  intros Hw. destruct rest as [|s [|t [|u rest]]];
    try (left; apply same_usage; right; do 3 eexists; split; [reflexivity|]; left; split; [now left|discriminate]).
  destruct (addr_cases s) as [(F & a & _ & Ha)|(e & _ & Hs)].
  - destruct (addr_cases t) as [(G & b & _ & Hb)|(e & _ & Ht)].
    + destruct (family_dec F G) as [<-|HF].
      * destruct (N.eq_dec (N.max (value a) (value b)) (top F)) as [E|E].
        -- right. exists F, prog, w, s, t, a, b. auto.
        -- left. destruct (c62_derange R F prog w s t a b Hw Ha Hb E) as (r & Er & D).
           destruct (c62_derange R' F prog w s t a b Hw Ha Hb E) as (r' & Er' & D').
           apply (range_env R R') in Er; [|eapply addr_valid; eassumption..]. rewrite Er in Er'. injection Er' as <-.
           apply (same_by R R' _ _ _ _ D D'). apply map_ext. intros x. now rewrite (net_display_env R' R).
      * left. exact (same_by R R' _ _ _ _ (proj2 (proj2 (c62_derange_error R F G prog w s t a b Hw)) Ha Hb HF)
          (proj2 (proj2 (c62_derange_error R' F G prog w s t a b Hw)) Ha Hb HF) eq_refl).
    + left. destruct (proj1 (proj2 (c62_derange_error R F V4 prog w s t a (dummy V4) Hw)) Ha Ht) as (e1 & E1 & D).
      destruct (proj1 (proj2 (c62_derange_error R' F V4 prog w s t a (dummy V4) Hw)) Ha Ht) as (e2 & E2 & D').
      addr_same. exact (same_by R R' _ _ _ _ D D' eq_refl).
  - left. destruct (proj1 (c62_derange_error R V4 V4 prog w s t (dummy V4) (dummy V4) Hw) Hs) as (e1 & E1 & D).
    destruct (proj1 (c62_derange_error R' V4 V4 prog w s t (dummy V4) (dummy V4) Hw) Hs) as (e2 & E2 & D').
    addr_same. exact (same_by R R' _ _ _ _ D D' eq_refl).
Qed.

Lemma resize_wf (R : Rust) (F : family) (n : net F) (m : addr F) r o : wf_net n -> valid m -> resize_network n m = Ret (r, o) -> Forall wf_net r.
Proof.
  intros Hn Hm E. destruct (N.lt_trichotomy (host_bits (subnet_mask n)) (host_bits m)) as [H|[H|H]].
  - destruct (c52_supernet R F n m Hn Hm H) as (x & Ex & Wx & _). rewrite E in Ex. injection Ex as -> _. apply Forall_cons; [exact Wx|apply Forall_nil].
  - destruct (c54_same_size R F n m Hn Hm (eq_sym H)) as (x & Ex & Wx & _). rewrite E in Ex. injection Ex as -> _. apply Forall_cons; [exact Wx|apply Forall_nil].
  - destruct (c53_subnets R F n m Hn Hm H) as (l & Ex & _ & Hl & _). rewrite E in Ex. injection Ex as -> _.
    eapply Forall_impl; [|exact Hl]. intros e He. apply He.
Qed.

(** What is said of a text that is no mask. *)
Definition resize_problem `{R : Rust} (F : family) (t : str) : errmsg :=
  match parse_subnet t with
  | Ret (RErr e) => MsgSubnet t e
  | Ret (ROk (PSCidr p)) => MsgCidrMax p (width F)
  | _ => match F with V4 => MsgMask6ForNet4 | V6 => MsgMask4ForNet6 end
  end.
Lemma resize_bad (R : Rust) F prog w s t (a : addr F) n : In w resize_words -> means F s a n ->
  (exists m : addr F, mask_text F t m) \/ does [prog; w; s; t] [Problem (resize_problem F t)] 1%Z.
Proof.
  intros Hw M. destruct (c62_resize_error R F prog w s t a n Hw) as (_ & E2 & E3 & E4). unfold resize_problem.
  destruct (proj2 (c34_returns R t)) as ([[p|m|m]|e] & E); rewrite E.
  + apply c34_subnet in E. destruct E as [Hwr Hp]. destruct (N.le_gt_cases p (width F)) as [Hle|Hgt].
    * left. assert (exists m : addr F, valid m /\ value m = prefix_mask F p) as (m & Vm & Em).
      { apply (value_surj (F := F)). unfold prefix_mask. pose proof (pow2_pos (width F - p)). pose proof (pow2_pos (width F)). lia. }
      exists m. right. exists p. auto.
    * right. exact (E3 M p Hwr (conj Hgt Hp)).
  + apply c34_subnet in E. assert (address_text V4 t m) as At by (split; [intros ->; now apply reads4_chars in E|exact E]).
    destruct F; [left; exists m; now left|]. right. assert (V4 <> V6) as HF by discriminate. exact (E4 M V4 m HF At).
  + apply c34_subnet in E. assert (address_text V6 t m) as At by exact E.
    destruct F; [|left; exists m; now left]. right. assert (V6 <> V4) as HF by discriminate. exact (E4 M V6 m HF At).
  + right. assert (no_address t) as Nt.
    { intros G m (Hne & Hm). destruct G.
      - apply (c34_subnet R) in Hm. congruence.
      - assert (parse_subnet t = Ret (ROk (PSMask6 m))) by (apply c34_subnet; now split). congruence. }
    assert (forall p, p < 2 ^ usize_bits -> ~ written 10 t p) as Np.
    { intros p Hp Hwr. assert (parse_subnet t = Ret (ROk (PSCidr p))) by (apply c34_subnet; now split). congruence. }
    destruct (E2 M Nt Np) as (e1 & F1 & D). rewrite F1 in E. injection E as <-. exact D.
Qed.

Lemma same_resize (R R' : Rust) prog w rest : In w resize_words -> same R R' (prog :: w :: rest).
Proof.
  intros Hw. destruct rest as [|s [|t [|u rest]]];
    try (apply same_usage; right; do 3 eexists; split; [reflexivity|]; left; split; [now right|discriminate]).
  destruct (parse_cases R s) as [(F & a & n & _ & M)|(e & _ & N)].
  - destruct (means_wf R F s a n M) as [_ Wn].
    assert (forall m : addr F, mask_text F t m -> same R R' [prog; w; s; t]) as K.
    { intros m Hm. assert (Vm : valid m). { destruct Hm as [Hm|(p & _ & _ & Hm & _)]; [eapply addr_valid; exact Hm|exact Hm]. }
      destruct (c62_resize R F prog w s t a n m Hw M Hm) as (r & o & first & mss & Er & Df & Dm & X).
      destruct (c62_resize R' F prog w s t a n m Hw M Hm) as (r' & o' & first' & mss' & Er' & Df' & Dm' & X').
      pose proof (resize_wf R F n m r o Wn Vm Er) as Wr. rewrite (resize_env R R' F n m Wn Vm), Er' in Er. injection Er as -> ->.
      apply (same_by R R' _ _ _ _ X X'). f_equal; [now apply (described_same R R' F n None)|now apply (described_list_same R R' F r)]. }
    destruct (resize_bad R F prog w s t a n Hw M) as [[m Hm]|D]; [exact (K m Hm)|].
    destruct (resize_bad R' F prog w s t a n Hw M) as [[m Hm]|D']; [exact (K m Hm)|].
    apply (same_alike R R' _ _ _ _ D D'). apply alike_problem. intros Hword. unfold resize_problem. now rewrite (subnet_env R R' t Hword).
  - destruct (proj1 (c62_resize_error R V4 prog w s t (dummy V4) (dummy_net V4) Hw) N) as (e1 & E1 & D).
    destruct (proj1 (c62_resize_error R' V4 prog w s t (dummy V4) (dummy_net V4) Hw) N) as (e2 & E2 & D').
    parse_same R R'. apply (same_alike R R' _ _ _ _ D D'). problem_same.
Qed.

(** A text has at most one meaning. *)
Lemma means_once (R : Rust) (F G : family) s (a : addr F) (n : net F) (b : addr G) (m : net G) (P : forall F : family, addr F -> net F -> Prop) :
  means F s a n -> means G s b m -> P F a n -> P G b m.
Proof.
  intros H H'. apply (parse_means R) in H, H'. rewrite H in H'. destruct F, G; cbn [spec_of] in H'; try discriminate; injection H' as <- <-; auto.
Qed.

Lemma same_enumerate (R R' : Rust) prog w rest : In w enumerate_words -> same R R' (prog :: w :: rest).
Proof.
  intros Hw. destruct rest as [|s ss].
  { apply same_usage. right. exists prog, w, []. split; [reflexivity|]. right. right. split; [now right|reflexivity]. }
  destruct (c62_enumerate R prog w (s :: ss) Hw) as (mss & z & H & Hz & D); [discriminate|].
  destruct (c62_enumerate R' prog w (s :: ss) Hw) as (mss' & z' & H' & Hz' & D'); [discriminate|].
  assert (z' = z) as ->.
  { destruct Hz as [[-> Hz]|[-> (t & Ht & Nt)]], Hz' as [[-> Hz']|[-> (t' & Ht' & Nt')]]; try reflexivity.
    - now apply Hz in Ht'.
    - now apply Hz' in Ht. }
  apply (same_alike R R' _ _ _ _ D D'). clear -H H'. revert mss' H'.
  induction H as [|t ms ts mss Ht H IH]; intros mss' H'; inversion H' as [|? ms' ? mss0 Ht' H0]; subst; [apply alike_refl|].
  cbn [List.concat]. apply alike_app; [|now apply IH]. clear -Ht Ht'.
  destruct Ht as [(F & a & n & l & M & Hi & Hs & ->)|(N & e & E & ->)], Ht' as [(G & b & m & l' & M' & Hi' & Hs' & ->)|(N' & e' & E' & ->)].
  - pose proof M' as M2. revert l' M' Hi' Hs'.
    apply (means_once R F G t a n b m (fun G b m => forall l', means G t b m -> (forall x, In x l' <-> valid x /\ member m x) ->
      StronglySorted (fun x y : addr G => value x < value y) l' ->
      alike R R' (map (fun x => says (@display (addr F) (@addr_ops R F) x)) l) (map (fun x => says (@display (addr G) (@addr_ops R' G) x)) l')) M M2).
    intros l' _ Hi' Hs'. assert (l' = l) as ->.
    { apply (strictly_sorted_ext (fun x y : addr F => value x < value y)); [intros; lia|intros; lia|assumption|assumption|].
      intros x. now rewrite Hi, Hi'. }
    assert (map (fun x => says (@display (addr F) (@addr_ops R' F) x)) l = map (fun x => says (@display (addr F) (@addr_ops R F) x)) l) as ->; [|apply alike_refl].
    apply map_ext. intros x. now rewrite (display_env R' R).
  - now apply N' in M.
  - now apply N in M'.
  - parse_same R R'. problem_same.
Qed.

Lemma same_show (R R' : Rust) prog w rest : ~ In w command_words -> same R R' (prog :: w :: rest).
Proof.
  intros Hw.
  assert ((forall s, In s (w :: rest) -> ~ nonsense s) \/ exists pre s post, w :: rest = pre ++ s :: post /\
    (forall t, In t pre -> ~ nonsense t) /\ nonsense s) as C.
  { clear Hw. generalize (w :: rest) as ss. induction ss as [|s ss IH]; [left; intros s []|].
    destruct (parse_cases R s) as [(F & a & n & _ & M)|(e & _ & N)].
    - assert (~ nonsense s) as Ns by (intros N; now apply N in M). destruct IH as [H|(pre & t & post & -> & Hp & Nt)].
      + left. intros t [<-|Ht]; auto.
      + right. exists (s :: pre), t, post. split; [reflexivity|]. split; [|exact Nt]. intros u [<-|Hu]; auto.
    - right. exists [], s, ss. split; [reflexivity|]. split; [intros t []|exact N]. }
  destruct C as [H|(pre & s & post & E & Hp & N)].
  - destruct (c62_show R prog (w :: rest)) as (mss & D & X); [discriminate|now intros x [= <-]|exact H|].
    destruct (c62_show R' prog (w :: rest)) as (mss' & D' & X'); [discriminate|now intros x [= <-]|exact H|].
    apply (same_by R R' _ _ _ _ X X'). f_equal. clear -D D'. revert mss' D'.
    induction D as [|s ms ss mss (F & a & n & M & Hd) D IH]; intros mss' D'; inversion D' as [|? ms' ? mss0 (G & b & m & M' & Hd') H0]; subst; [reflexivity|].
    f_equal; [|now apply IH]. revert Hd'.
    apply (means_once R F G s a n b m (fun G b m => @described R' G m (Some b) ms' -> ms' = ms) M M').
    intros Hd'. apply (described_same R R' F n (Some a)); [|assumption..]. eapply (means_wf R); exact M.
  - destruct (c62_show_error R prog pre post s) as (e1 & E1 & D); [rewrite <- E; now intros x [= <-]|exact Hp|exact N|].
    destruct (c62_show_error R' prog pre post s) as (e2 & E2 & D'); [rewrite <- E; now intros x [= <-]|exact Hp|exact N|].
    parse_same R R'. rewrite <- E in D, D'. apply (same_alike R R' _ _ _ _ D D'). problem_same.
Qed.

Lemma same_split (R R' : Rust) prog w rest : In w split_words ->
  same R R' (prog :: w :: rest) \/ split_to_top (prog :: w :: rest).
Proof.
  intros Hw. destruct rest as [|s [|s0 ss']];
    try (left; apply same_usage; right; do 3 eexists; split; [reflexivity|]; right; left; split; [exact Hw|cbn [List.length]; lia]).
  set (ss := s0 :: ss'). assert (ss <> []) as Hss by discriminate. clearbody ss.
  destruct (counts_cases ss Hss) as [(cs & Hc)|(pre & cs & t & post & -> & Hp & Ht)].
  - destruct (parse_cases R s) as [(F & a & n & _ & M)|(e & _ & N)].
    + destruct (means_wf R F s a n M) as [_ Wn]. destruct (c25_last_addr R F n Wn) as (h & _ & Hh).
      assert (cs <> []) as Hne by (destruct Hc as (_ & H2 & _); destruct H2; congruence).
      destruct (c62_split R F prog w s ss a n cs h Hw M Hc Hh) as (first & Df & P1 & P2).
      destruct (c62_split R' F prog w s ss a n cs h Hw M Hc Hh) as (first' & Df' & P1' & P2').
      pose proof (described_same R R' F n None first first' Wn Df Df') as ->.
      destruct (N.le_gt_cases (run_start n cs + total cs) (top F)) as [Hle|Hgt].
      * destruct (P2 Hle) as (r & mss & Er & Dm & Q1 & Q2). destruct (P2' Hle) as (r' & mss' & Er' & Dm' & Q1' & Q2').
        assert (Em : no_ties (prog :: w :: s :: ss) -> mss' = mss).
        { intros Hnt. assert (Wr : Forall wf_net r).
          { pose proof (c46_one_per_request R F n cs r Wn Er) as O. clear -O. induction O as [|c e cs r He O IH]; constructor; [apply He|exact IH]. }
          pose proof (c46_environment R R' F n cs Wn) as En. rewrite Er, Er' in En. destruct En as [_ En].
          rewrite (En (Hnt prog w s ss cs eq_refl Hw Hc)) in Dm, Wr. now apply (described_list_same R R' F r'). }
        destruct (inside_dec R n cs Wn Hne) as [Hi|Hi].
        -- destruct (N.eq_dec (N.max (run_start n cs + total cs) (value h)) (top F)) as [E|E].
           ++ right. exists F, prog, w, s, ss, a, n, cs, h. repeat (split; [first [reflexivity|assumption]|]). exact E.
           ++ left. destruct (Q2 Hi E) as (b & us & Vb & Eb & Eu & X). destruct (Q2' Hi E) as (b' & us' & Vb' & Eb' & Eu' & X').
              assert (b' = b) as -> by (apply (value_inj (R := R)); congruence).
              apply (range_env R R') in Eu; [|assumption|apply Hh]. rewrite Eu in Eu'. injection Eu' as <-.
              eexists _, _, _. split; [exact X|]. split; [exact X'|]. intros Hnt. rewrite (Em Hnt).
              assert (map (fun u => says (@net_display (addr F) (@addr_ops R' F) u)) us = map (fun u => says (@net_display (addr F) (@addr_ops R F) u)) us) as ->
                by (apply map_ext; intros x; now rewrite (net_display_env R' R)).
              apply alike_refl.
        -- left. eexists _, _, _. split; [exact (Q1 Hi)|]. split; [exact (Q1' Hi)|]. intros Hnt. rewrite (Em Hnt). apply alike_refl.
      * left. destruct (P1 Hgt) as [_ X]. destruct (P1' Hgt) as [_ X']. exact (same_by R R' _ _ _ _ X X' eq_refl).
    + left. destruct (proj1 (c62_split_error R V4 prog w s ss [] [] cs Hw) N Hc) as (e1 & E1 & D).
      destruct (proj1 (c62_split_error R' V4 prog w s ss [] [] cs Hw) N Hc) as (e2 & E2 & D').
      parse_same R R'. apply (same_alike R R' _ _ _ _ D D'). problem_same.
  - left. destruct (proj2 (c62_split_error R V4 prog w s pre post t cs Hw) Hp) as [X Y].
    destruct (proj2 (c62_split_error R' V4 prog w s pre post t cs Hw) Hp) as [X' Y']. destruct Ht as [Ht|(c & Hc & Neg)].
    + exact (same_by R R' _ _ _ _ (X Ht) (X' Ht) eq_refl).
    + exact (same_by R R' _ _ _ _ (Y c Hc Neg) (Y' c Hc Neg) eq_refl).
Qed.

Lemma same_all (R R' : Rust) args : same R R' args \/ derange_to_top args \/ split_to_top args.
Proof.
  destruct args as [|prog [|w rest]]; [left; apply same_usage; left; cbn [List.length]; lia..|].
  destruct (run_cases w) as [H|[H|[H|[H|[H|[->|[->|H]]]]]]].
  - left. now apply same_minimize.
  - destruct (same_derange R R' prog w rest H); auto.
  - destruct (same_split R R' prog w rest H); auto.
  - left. now apply same_resize.
  - left. now apply same_enumerate.
  - left. destruct (uniform_bind (fun T => @color_test T) (fun T _ => io_ret 0%Z)) as (ms & r & E).
    + unfold color_test. uni.
    + intros _. apply uniform_ret.
    + exists ms, ms, 0%Z.
      assert (r = Ret 0%Z) as -> by (specialize (E plain); apply (f_equal snd) in E; cbn in E; congruence).
      split; [exact E|]. split; [exact E|]. intros _. apply alike_refl.
  - left. apply (same_by R R' _ [Problem MsgUsage] [Problem MsgUsage] 0%Z); [intros T; reflexivity|intros T; reflexivity|reflexivity].
  - left. now apply same_show.
Qed.

Lemma same_run (R R' : Rust) (T : Terminal) args z : snd (@do_main R T args) = Ret z ->
  exists ms ms', @do_main R T args = (map (paint colors_enabled) ms, Ret z) /\ @do_main R' T args = (map (paint colors_enabled) ms', Ret z) /\
    (no_ties args -> alike R R' ms ms').
Proof.
  intros E. pose proof (proj1 (c62_ends_iff R T args) (ex_intro _ z E)) as [N1 N2].
  destruct (same_all R R' args) as [(ms & ms' & z' & D & D' & H)|[H|H]]; [|contradiction..].
  exists ms, ms'. rewrite (D T) in E. cbn [snd] in E. injection E as ->. split; [apply D|]. split; [apply D'|exact H].
Qed.

Lemma c67_same_run : forall (R R' : Rust) (T : Terminal) (args : list str) (z : Z),
  @usize_bits R = @usize_bits R' ->
  snd (@do_main R T args) = Ret z ->
  (forall prog w s ss cs, args = prog :: w :: s :: ss -> In w split_words -> counts_text ss cs -> NoDup cs) ->
  @do_main R' T args = @do_main R T args.
Proof. intros R R' T args z Hw E H. destruct (same_run R R' T args z E) as (ms & ms' & -> & -> & K). now rewrite (proj2 (K H) Hw). Qed.

Lemma c67_same_status : forall (R R' : Rust) (T : Terminal) (args : list str) (z : Z),
  snd (@do_main R T args) = Ret z -> snd (@do_main R' T args) = Ret z.
Proof. intros R R' T args z E. destruct (same_run R R' T args z E) as (ms & ms' & _ & -> & _). reflexivity. Qed.

Lemma c67_same_output : forall (R R' : Rust) (T : Terminal) (args : list str) (z : Z),
  snd (@do_main R T args) = Ret z ->
  (forall prog w s ss cs, args = prog :: w :: s :: ss -> In w split_words -> counts_text ss cs -> NoDup cs) ->
  Forall2 (fun e e' => e' = e \/ exists m m', e = EvErr m /\ e' = EvErr m') (fst (@do_main R T args)) (fst (@do_main R' T args)).
Proof.
  intros R R' T args z E H. destruct (same_run R R' T args z E) as (ms & ms' & -> & -> & K). cbn [fst]. destruct (K H) as [A _]. clear -A.
  induction A as [|m m' ms ms' Hm A IH]; cbn [map]; constructor; [|exact IH]. destruct Hm as [->|(e & e' & -> & ->)]; [now left|].
  right. cbn [paint]. eauto.
Qed.

Lemma c67_word_refuted : exists (R R' : Rust) (args : list str),
  snd (@do_main R plain args) = Ret 1%Z /\ @do_main R' plain args <> @do_main R plain args /\
  (forall prog w s ss cs, args = prog :: w :: s :: ss -> In w split_words -> counts_text ss cs -> NoDup cs).
Proof.
  exists release_env, narrow_env, [lit "ripcalc"; lit "-e"; lit "::/4294967296"].
  split; [vm_compute; reflexivity|]. split; [vm_compute; discriminate|].
  intros prog w s ss cs E Hw. injection E as <- <- <- <-. exfalso. repeat (destruct Hw as [Hw|Hw]; [discriminate|]). exact Hw.
Qed.

Lemma c67_ties_refuted : exists (R R' : Rust) (args : list str),
  snd (@do_main R plain args) = Ret 0%Z /\ @do_main R' plain args <> @do_main R plain args.
Proof.
  exists debug_env, reverse_env, [lit "ripcalc"; lit "-s"; lit "10.0.0.0/24"; lit "2"; lit "2"].
  split; [vm_compute; reflexivity|]. vm_compute. discriminate.
Qed.

(** ** Output as input *)
Lemma paint_inj m m' : paint true m = paint true m' -> m = m'.
Proof. destruct m, m'; cbn [paint]; intros H; try discriminate; congruence. Qed.
Lemma does_once (R : Rust) args ms ms' z z' : does args ms z -> does args ms' z' -> ms = ms' /\ z = z'.
Proof.
  intros H H'. specialize (H colourful). rewrite (H' colourful) in H. cbn [colors_enabled colourful] in H.
  assert (E : map (paint true) ms' = map (paint true) ms) by congruence. split; [|congruence]. clear -E.
  revert ms' E. induction ms as [|m ms IH]; intros [|m' ms']; cbn [map]; intros E; try discriminate; [reflexivity|].
  injection E as E1 E2. f_equal; [now apply paint_inj|now apply IH].
Qed.
Lemma says_lines {X} (f : X -> str) ts (r : list X) : map (fun x => says (f x)) r = map says ts -> ts = map f r.
Proof.
  revert ts. induction r as [|x r IH]; intros [|t ts]; cbn [map]; try discriminate; [reflexivity|].
  unfold says at 1 3. intros E. assert (E1 : f x ++ newline = t ++ newline) by congruence. apply app_inv_tail in E1.
  assert (E2 : map (fun x => says (f x)) r = map says ts) by congruence. f_equal; [congruence|now apply IH].
Qed.
Lemma lines_says {X} (f : X -> str) (r : list X) : map says (map f r) = map (fun x => says (f x)) r.
Proof. apply map_map. Qed.

Lemma reads_back (R : Rust) (F : family) (n : net F) p : is_cidr n p -> of_family F (net_display n) ->
  means F (net_display n) (base_addr n) n.
Proof.
  intros [Wn Hp] (a & m & M). apply (parse_means R). apply (c30_roundtrip R F); [assumption| |congruence].
  intros U. apply (parse_means R) in M. rewrite (proj1 (c30_unreadable R F n Wn) U) in M. discriminate.
Qed.
Lemma reads_back_list (R : Rust) (F : family) (r : list (net F)) :
  Forall (fun n => exists p, is_cidr n p) r -> Forall (of_family F) (map net_display r) ->
  Forall2 (fun s an => means F s (fst an) (snd an)) (map net_display r) (map (fun n => (base_addr n, n)) r).
Proof.
  induction r as [|n r IH]; intros Hc Ho; cbn [map]; [constructor|].
  inversion Hc as [|? ? [p Hp] Hc']; inversion Ho as [|? ? Hn Ho']; subst. constructor; [|now apply IH].
  cbn [fst snd]. now apply (reads_back R F n p).
Qed.
Lemma snd_pairs {F : family} (r : list (net F)) : map snd (map (fun n : net F => (base_addr n, n)) r) = r.
Proof. rewrite map_map. apply map_id. Qed.

Lemma choose_means (F : family) (P : net F -> Prop) ss : Forall (fun s => exists a n, means F s a n /\ P n) ss ->
  exists l : list (addr F * net F), Forall2 (fun s an => means F s (fst an) (snd an)) ss l /\ Forall P (map snd l).
Proof.
  induction 1 as [|s ss (a & n & M & Hp) H (l & Hl & Pl)]; [exists []; split; constructor|].
  exists ((a, n) :: l). split; [constructor; assumption|]. cbn [map snd]. now constructor.
Qed.

Lemma not_usage (R : Rust) prog w ts : In w minimize_words -> ~ does [prog; w] (map says ts) 0%Z.
Proof.
  intros Hw D. assert (D' : does [prog; w] [Problem MsgUsage] 1%Z).
  { apply (c62_usage R). right. exists prog, w, []. split; [reflexivity|]. right. right. split; [now left|reflexivity]. }
  now destruct (does_once R _ _ _ _ _ D D').
Qed.

(** The lines of a minimization. *)
Lemma minimize_lines (R : Rust) (F : family) prog w ss l ts : In w minimize_words ->
  Forall2 (fun s an => means F s (fst an) (snd an)) ss l -> does (prog :: w :: ss) (map says ts) 0%Z ->
  ss <> [] /\ Forall wf_net (map snd l) /\ exists r, minimize_subnets (map snd l) = Ret r /\ ts = map net_display r.
Proof.
  intros Hw M D. assert (Hne : ss <> []) by (intros ->; now apply not_usage in D).
  split; [exact Hne|]. split.
  { clear -R M. induction M as [|s an ss l Hs M IH]; [constructor|]. cbn [map]. constructor; [apply (means_wf R F s _ _ Hs)|exact IH]. }
  destruct (c62_minimize R F prog w ss l Hw Hne M) as (r & E & D').
  exists r. split; [exact E|]. destruct (does_once R _ _ _ _ _ D' D) as [E' _]. now apply says_lines in E'.
Qed.

Lemma c68_minimize_again : forall (R : Rust) (F : family) (prog w : str) (ss ts : list str),
  In w minimize_words -> Forall (fun s => exists a n p, means F s a n /\ is_cidr n p) ss ->
  does (prog :: w :: ss) (map says ts) 0%Z -> Forall (of_family F) ts ->
  does (prog :: w :: ts) (map says ts) 0%Z.
Proof.
  intros R F prog w ss ts Hw Hs D Ho.
  destruct (choose_means F (fun n => exists p, is_cidr n p) ss) as (l & M & Hc).
  { eapply Forall_impl; [|exact Hs]. intros s (a & n & p & M & Hp). exists a, n. split; [exact M|now exists p]. }
  destruct (minimize_lines R F prog w ss l ts Hw M D) as (Hne & Wl & r & E & ->).
  pose proof (min_inv (map snd l) r Wl E) as (_ & _ & _ & _ & _ & K). apply cidr_iff_list in Hc as Hc'.
  destruct (K Hc') as [Kr _]. apply cidr_iff_list in Kr.
  pose proof (reads_back_list R F r Kr Ho) as M'.
  assert (Hr : map net_display r <> []).
  { intros Er. apply map_eq_nil in Er. subst r. destruct (c39_same_addresses R F (map snd l) Wl) as (r & E' & U). rewrite E in E'. injection E' as <-.
    destruct M as [|s an ss l Ms M]; [congruence|]. destruct (means_wf R F s _ _ Ms) as [_ Wn].
    destruct (proj2 (U (base_addr (snd an)) (wf_base _ Wn))) as (? & [] & _).
    exists (snd an). split; [now left|apply member_base]. }
  destruct (c62_minimize R F prog w _ _ Hw Hr M') as (r' & E' & D').
  apply (eq_trans (f_equal (@minimize_subnets R (addr F) _) (eq_sym (snd_pairs r)))) in E'.
  rewrite (c45_idempotent R F (map snd l) r Hc E) in E'. injection E' as <-. now rewrite lines_says.
Qed.

Lemma c68_readable_v4 : forall (R : Rust) (prog w : str) (ss ts : list str),
  (In w minimize_words /\ Forall (of_family V4) ss \/
   In w derange_words /\ Forall (fun s => exists a, address_text V4 s a) ss) ->
  does (prog :: w :: ss) (map says ts) 0%Z -> Forall (of_family V4) ts.
Proof.
  intros R prog w ss ts H D.
  assert (K : forall r : list (net V4), Forall wf_net r -> Forall (of_family V4) (map net_display r)).
  { intros r Wr. apply Forall_map. eapply Forall_impl; [|exact Wr]. intros n Wn. exists (base_addr n), n.
    apply (parse_means R V4). now apply c30_roundtrip_v4. }
  destruct H as [[Hw Hs]|[Hw Hs]].
  - destruct (choose_means V4 (fun _ => True) ss) as (l & M & _).
    { eapply Forall_impl; [|exact Hs]. intros s (a & n & M). exists a, n. now split. }
    destruct (minimize_lines R V4 prog w ss l ts Hw M D) as (Hne & Wl & r & E & ->).
    apply K. destruct (c40_returns R V4 (map snd l) Wl) as (r' & E' & Wr). rewrite E in E'. injection E' as <-. exact Wr.
  - assert (U : List.length ss <> 2%nat -> False).
    { intros Hl. assert (D' : does (prog :: w :: ss) [Problem MsgUsage] 1%Z).
      { apply (c62_usage R). right. exists prog, w, ss. split; [reflexivity|]. left. split; [now left|exact Hl]. }
      now destruct (does_once R _ _ _ _ _ D D'). }
    destruct ss as [|s [|t [|u ss]]]; try (exfalso; apply U; discriminate).
    inversion Hs as [|? ? (a & Ha) Hs1]; subst. inversion Hs1 as [|? ? (b & Hb) _]; subst.
    assert (N.max (value a) (value b) <> top V4) as Ht.
    { intros E. destruct (proj1 (c62_ends_iff R plain [prog; w; s; t])) as [N1 _]; [exists 0%Z; now rewrite (D plain)|]. apply N1.
      exists V4, prog, w, s, t, a, b. auto. }
    destruct (c62_derange R V4 prog w s t a b Hw Ha Hb Ht) as (r & E & D').
    destruct (does_once R _ _ _ _ _ D' D) as [E' _]. apply says_lines in E'. subst ts. apply K.
    assert (Va : valid a) by (eapply addr_valid; exact Ha). assert (Vb : valid b) by (eapply addr_valid; exact Hb).
    destruct (c35_covers_exactly R V4 a b Va Vb) as (r' & Er & Hc & _).
    { pose proof (value_lt a Va). pose proof (value_lt b Vb). unfold top in Ht. lia. }
    rewrite E in Er. injection Er as <-. eapply Forall_impl; [|exact Hc]. intros n [p Hp]. apply Hp.
Qed.

Lemma c68_derange_minimize : forall (R : Rust) (F : family) (prog w w' s t : str) (a b : addr F) (ts ts' : list str),
  In w derange_words -> In w' minimize_words -> address_text F s a -> address_text F t b ->
  does [prog; w; s; t] (map says ts) 0%Z -> Forall (of_family F) ts ->
  (forall x, In x ts <-> In x ts') ->
  does (prog :: w' :: ts') (map says ts) 0%Z.
Proof.
  intros R F prog w w' s t a b ts ts' Hw Hw' Ha Hb D Ho Hin.
  assert (Va : valid a) by (eapply addr_valid; exact Ha). assert (Vb : valid b) by (eapply addr_valid; exact Hb).
  assert (N.max (value a) (value b) <> top F) as Ht.
  { intros E. destruct (proj1 (c62_ends_iff R plain [prog; w; s; t])) as [N1 _]; [exists 0%Z; now rewrite (D plain)|]. apply N1.
    exists F, prog, w, s, t, a, b. auto. }
  destruct (c62_derange R F prog w s t a b Hw Ha Hb Ht) as (r & E & D').
  destruct (does_once R _ _ _ _ _ D' D) as [E' _]. apply says_lines in E'. subst ts.
  assert (Hi : N.max (value a) (value b) + 1 < 2 ^ width F).
  { pose proof (value_lt a Va). pose proof (value_lt b Vb). unfold top in Ht. lia. }
  destruct (c35_covers_exactly R F a b Va Vb Hi) as (r' & Er & Hc & U & _). rewrite E in Er. injection Er as <-.
  pose proof (reads_back_list R F r Hc Ho) as M.
  assert (Hts : Forall (fun x => exists c n, means F x c n /\ In n r) ts').
  { apply Forall_forall. intros x Hx. apply Hin in Hx. apply in_map_iff in Hx. destruct Hx as (n & <- & Hn).
    exists (base_addr n), n. split; [|exact Hn]. rewrite Forall_forall in Hc, Ho. destruct (Hc n Hn) as [p Hp].
    apply (reads_back R F n p Hp). apply Ho. now apply in_map. }
  destruct (choose_means F (fun n => In n r) ts' Hts) as (l & Ml & Hl).
  assert (Hsame : forall n, In n r <-> In n (map snd l)).
  { intros n. split; [|intros Hn; rewrite Forall_forall in Hl; now apply Hl]. intros Hn.
    assert (Hx : In (net_display n) ts') by (apply Hin, in_map, Hn).
    rewrite Forall_forall in Hc, Ho. destruct (Hc n Hn) as [p Hp].
    pose proof (reads_back R F n p Hp (Ho _ (in_map _ _ _ Hn))) as Mn. clear -R Ml Hx Mn.
    induction Ml as [|x cn ts l Hcn Ml IH]; [contradiction|]. cbn [map]. destruct Hx as [->|Hx]; [left|right; now apply IH].
    apply (parse_means R) in Hcn, Mn. rewrite Mn in Hcn. destruct F; cbn [spec_of] in Hcn; congruence. }
  assert (Hne : ts' <> []).
  { intros ->. assert (Hm : exists n, In n r /\ member n a) by (apply (U a Va); lia).
    destruct Hm as (n & Hn & _). now apply (in_map net_display), Hin in Hn. }
  destruct (c62_minimize R F prog w' ts' l Hw' Hne Ml) as (r' & Er & Dr).
  rewrite (c64_derange R F a b r (map snd l) Va Vb E Hsame) in Er. injection Er as <-. now rewrite lines_says.
Qed.

Lemma host_net (R : Rust) (F : family) (x : addr F) : valid x -> exists h : net F, is_cidr h (width F) /\ base_addr h = x.
Proof.
  intros Vx. destruct (c17_with_prefix R F x (width F) Vx ltac:(lia)) as (h & _ & Hh & Mh & _). exists h. split; [exact Hh|].
  symmetry. now apply (host_member h x).
Qed.
Lemma host_text (R : Rust) (F : family) (h : net F) : is_cidr h (width F) ->
  net_display h = display (base_addr h) ++ match F with V4 => lit "/32" | V6 => lit "/128" end.
Proof. intros [_ Hp]. unfold net_display. rewrite Hp. destruct F; reflexivity. Qed.

Lemma c68_enumerate_minimize : forall (R : Rust) (F : family) (prog w w' s : str) (a : addr F) (n : net F) (p : N) (ts : list str),
  In w enumerate_words -> In w' minimize_words -> means F s a n -> is_cidr n p ->
  does [prog; w; s] (map says ts) 0%Z ->
  let hosts := map (fun t => t ++ match F with V4 => lit "/32" | V6 => lit "/128" end) ts in
  (F = V4 -> Forall (of_family F) hosts) /\
  (Forall (of_family F) hosts -> does (prog :: w' :: hosts) [says (net_display n)] 0%Z).
Proof.
  intros R F prog w w' s a n p ts Hw Hw' M Hp D hosts.
  assert (Hl : exists l, (forall x, In x l <-> valid x /\ member n x) /\ ts = map display l).
  { destruct (c62_enumerate R prog w [s] Hw) as (mss & z & H & _ & D'); [discriminate|].
    destruct (does_once R _ _ _ _ _ D' D) as [E _].
    inversion H as [|? ms ? mss' Hs H0]; subst. inversion H0; subst. cbn [List.concat] in E. rewrite app_nil_r in E. subst ms.
    destruct Hs as [(G & b & m & l & M' & Hi & _ & El)|(Ns & _)]; [|now apply Ns in M].
    revert l Hi El. apply (means_once R F G s a n b m (fun G b m => forall l : list (addr G), (forall x, In x l <-> valid x /\ member m x) ->
      map says ts = map (fun x => says (display x)) l -> exists l : list (addr F), (forall x, In x l <-> valid x /\ member n x) /\ ts = map display l) M M').
    intros l Hi El. exists l. split; [exact Hi|]. symmetry in El. now apply says_lines in El. }
  destruct Hl as (l & Hi & ->).
  assert (Hh : exists hs : list (net F), Forall (fun h => is_cidr h (width F)) hs /\ map base_addr hs = l /\ hosts = map net_display hs).
  { unfold hosts. clear -R Hi. assert (Hv : forall x, In x l -> valid x) by (intros x Hx; now apply Hi). clear Hi.
    induction l as [|x l IH]; [exists []; repeat split; constructor|].
    destruct IH as (hs & H1 & H2 & H3); [intros y Hy; apply Hv; now right|].
    destruct (host_net R F x) as (h & Hh & Eh); [apply Hv; now left|]. exists (h :: hs). split; [now constructor|].
    split; [cbn [map]; congruence|]. cbn [map]. rewrite (host_text R F h Hh), Eh. exact (f_equal (cons _) H3). }
  destruct Hh as (hs & H1 & H2 & H3). split.
  - intros ->. rewrite H3. apply Forall_map. eapply Forall_impl; [|exact H1]. intros h [Wh _]. exists (base_addr h), h.
    apply (parse_means R V4). now apply c30_roundtrip_v4.
  - rewrite H3. intros Ho. assert (Hc : Forall (fun n => exists p, is_cidr n p) hs).
    { eapply Forall_impl; [|exact H1]. intros h Hh. now exists (width F). }
    pose proof (reads_back_list R F hs Hc Ho) as Mh.
    assert (Hne : map net_display hs <> []).
    { intros E. apply map_eq_nil in E. subst hs. cbn [map] in H2. subst l.
      destruct (proj2 (Hi (base_addr n))). split; [apply wf_base, Hp|apply member_base]. }
    destruct (c62_minimize R F prog w' _ _ Hw' Hne Mh) as (r & Er & Dr).
    apply (eq_trans (f_equal (@minimize_subnets R (addr F) _) (eq_sym (snd_pairs hs)))) in Er.
    destruct (c55_lists_exactly R F n (proj1 Hp)) as (l' & El & Hl' & _).
    rewrite (c64_enumerate R F n p l' hs Hp El H1) in Er; [injection Er as <-; exact Dr|].
    intros c. rewrite Hl', <- Hi, <- H2, in_map_iff. split; intros (h & X & Y); exists h; now split.
Qed.
