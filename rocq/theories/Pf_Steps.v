(** * Pf_Steps: proofs for P_Steps *)
From Verif Require Import RustBase Addr BitManip Cidr Net Derange Minimize Split Resize Enumerate Spec SpecCount Bits Blocks Laws NetFacts SetFacts Family Order ResizeFacts SplitFacts Pf_Net Pf_Minimize Pf_Derange Pf_Split Pf_Resize Pf_Enum Pf_Compose Pf_Embed Demo.
From Coq Require Import ZifyBool ZifyNat ZifyN.
Ltac Zify.zify_post_hook ::= idtac.

(** ** Positions of networks *)
Definition pos {F} (e : net F) : N := position (subnet_mask e) (base_addr e).
Definition hb {F} (e : net F) : N := host_bits (subnet_mask e).
Definition meet {F} (e n : net F) : Prop :=
  exists x, pos e <= x < pos e + 2 ^ hb e /\ pos n <= x < pos n + 2 ^ hb n.

Lemma meet_sym {F} (e n : net F) : meet e n -> meet n e.
Proof. intros (x & H1 & H2). now exists x. Qed.

Lemma aligned `{R : Rust} {F} (e : net F) : wf_net e -> exists k, pos e = k * 2 ^ hb e.
Proof.
  intros W. pose proof (proj1 (wf_okN e) W) as O. unfold pos, hb.
  rewrite (position_rk _ _ (wf_mask e W) (wf_base e W)), (rk_base e O), (host_bits_hf _ (wf_mask e W)). unfold size. eauto.
Qed.

Lemma blocks_in k j D c x : 0 < D -> k * D <= x < k * D + D -> j * (c * D) <= x < j * (c * D) + c * D ->
  j * (c * D) <= k * D /\ k * D + D <= j * (c * D) + c * D.
Proof.
  intros HD H1 H2. rewrite N.mul_assoc in *. rewrite <- N.mul_add_distr_r in *. split.
  - apply N.mul_le_mono_r. apply N.lt_succ_r. apply (N.mul_lt_mono_pos_r D); [assumption|]. lia.
  - replace (k * D + D) with ((k + 1) * D) by lia. apply N.mul_le_mono_r. assert (k < j * c + c); [|lia].
    apply (N.mul_lt_mono_pos_r D); [assumption|]. lia.
Qed.

Lemma meet_in `{R : Rust} {F} (e n : net F) : wf_net e -> wf_net n -> hb e <= hb n -> meet e n ->
  pos n <= pos e /\ pos e + 2 ^ hb e <= pos n + 2 ^ hb n.
Proof.
  intros We Wn H (x & H1 & H2). destruct (aligned e We) as [k Ek]. destruct (aligned n Wn) as [j Ej]. rewrite Ek, Ej in *.
  replace (2 ^ hb n) with (2 ^ (hb n - hb e) * 2 ^ hb e) in * by (rewrite <- N.pow_add_r; f_equal; lia).
  eapply blocks_in; try eassumption. apply pow2_pos.
Qed.
Lemma in_meet {F} (e n : net F) : pos n <= pos e -> pos e + 2 ^ hb e <= pos n + 2 ^ hb n -> meet e n.
Proof. intros H1 H2. exists (pos e). pose proof (pow2_pos (hb e)). lia. Qed.

Lemma pos_lt `{R : Rust} {F} (e e' : net F) : wf_net e -> wf_net e' -> subnet_mask e' = subnet_mask e ->
  value (base_addr e) < value (base_addr e') -> pos e < pos e'.
Proof.
  intros W W' Em Hlt. pose proof (proj1 (wf_okN e) W) as O. pose proof (proj1 (wf_okN e') W') as O'.
  apply N.nle_gt. intros C. apply N.lt_eq_cases in C. destruct C as [C|C].
  - assert (value (base_addr e') < value (base_addr e)); [|lia].
    rewrite <- !value_v by (apply W || apply W'). apply (net_lt (subnet_mask e)).
    + rewrite <- Em at 1. now rewrite (okN_host e O), (okN_host e' O').
    + unfold pos in C. rewrite Em in C. rewrite !position_rk in C by (apply W || apply W').
      pose proof (rk_base e O) as E1. pose proof (rk_base e' O') as E2. rewrite Em in E2. unfold size in *. rewrite Em in E2.
      rewrite E1, E2 in C. now apply N.mul_lt_mono_pos_r in C; [|apply pow2_pos].
  - assert (e' = e) by (apply (same_position e e' W W' Em); unfold pos in C; now rewrite Em in C). subst e'. lia.
Qed.
Lemma pos_eq `{R : Rust} {F} (e e' : net F) : wf_net e -> wf_net e' -> subnet_mask e' = subnet_mask e -> pos e' = pos e -> e' = e.
Proof. intros W W' Em C. apply (same_position e e' W W' Em). unfold pos in C. now rewrite Em in C. Qed.
Lemma pos_gap `{R : Rust} {F} (e e' : net F) : wf_net e -> wf_net e' -> subnet_mask e' = subnet_mask e -> pos e < pos e' -> pos e + 2 ^ hb e <= pos e'.
Proof.
  intros W W' Em C. destruct (aligned e W) as [k Ek]. destruct (aligned e' W') as [j Ej]. unfold hb in Ej. rewrite Em in Ej. fold (hb e) in Ej.
  rewrite Ek, Ej in *. apply N.mul_lt_mono_pos_r in C; [|apply pow2_pos]. replace (k * 2 ^ hb e + 2 ^ hb e) with ((k + 1) * 2 ^ hb e) by lia.
  apply N.mul_le_mono_r. lia.
Qed.
Lemma meet_same `{R : Rust} {F} (e e' : net F) : wf_net e -> wf_net e' -> subnet_mask e' = subnet_mask e -> meet e e' -> e' = e.
Proof.
  intros W W' Em (x & H1 & H2). apply (pos_eq e e' W W' Em).
  assert (hb e' = hb e) as Eh by (unfold hb; now rewrite Em). rewrite Eh in H2.
  destruct (N.lt_trichotomy (pos e) (pos e')) as [C|[C|C]]; [|now symmetry|].
  - pose proof (pos_gap e e' W W' Em C). lia.
  - pose proof (pos_gap e' e W' W (eq_sym Em) C). rewrite Eh in *. lia.
Qed.

Definition by_pos {F} (e e' : net F) : Prop := pos e < pos e'.

Lemma same_list {F} (l l' : list (net F)) : StronglySorted by_pos l -> StronglySorted by_pos l' -> (forall x, In x l <-> In x l') -> l = l'.
Proof. apply strictly_sorted_ext; unfold by_pos; [intros x|intros x y z]; lia. Qed.

(** What resizing lists. *)
Lemma resized (R : Rust) {F} (n : net F) (m : addr F) : wf_net n -> valid m ->
  exists l o, resize_network n m = Ret (l, o) /\ Forall (fun e => wf_net e /\ subnet_mask e = m) l /\ StronglySorted by_pos l /\
    l <> [] /\ (hb n <= host_bits m -> exists e, l = [e]) /\
    forall e, wf_net e -> subnet_mask e = m -> (In e l <-> meet e n).
Proof.
  intros W Vm. destruct (N.lt_trichotomy (host_bits (subnet_mask n)) (host_bits m)) as [C|[C|C]].
  - destruct (c52_supernet R F n m W Vm C) as (e & E & We & Ee & Pe).
    assert (meet n e) as M.
    { apply in_meet; unfold pos, hb; rewrite Ee, Pe; clear Pe; set (x := position _ _).
      - pose proof (pow2_pos (host_bits m)). pose proof (N.mod_le x (2 ^ host_bits m)). lia.
      - destruct (aligned n W) as [k Ek]. fold (pos n) in x. unfold hb in Ek. subst x. rewrite Ek.
        replace (2 ^ host_bits m) with (2 ^ (host_bits m - host_bits (subnet_mask n)) * 2 ^ host_bits (subnet_mask n)) by (rewrite <- N.pow_add_r; f_equal; lia).
        pose proof (pow2_pos (host_bits (subnet_mask n))) as P1. pose proof (pow2_pos (host_bits m - host_bits (subnet_mask n))) as P2.
        rewrite N.mul_mod_distr_r by lia. pose proof (N.mod_lt k (2 ^ (host_bits m - host_bits (subnet_mask n))) ltac:(lia)) as L.
        pose proof (N.mod_le k (2 ^ (host_bits m - host_bits (subnet_mask n))) ltac:(lia)) as L'.
        revert P1 P2 L L'. generalize (2 ^ host_bits (subnet_mask n)) (2 ^ (host_bits m - host_bits (subnet_mask n))). clear. intros D c P1 P2.
        generalize (k mod c). intros z L L'. nia. }
    exists [e], Lt. split; [exact E|]. split; [constructor; [now split|constructor]|]. split; [repeat constructor|]. split; [discriminate|]. split; [eauto|].
    intros d Wd Ed. split; [intros [->|[]]; now apply meet_sym|]. intros Hd. left.
    apply (meet_same d e Wd We ltac:(congruence)).
    destruct (meet_in n e W We ltac:(unfold hb; rewrite Ee; lia) M). destruct (meet_in n d W Wd ltac:(unfold hb; rewrite Ed; lia) (meet_sym _ _ Hd)).
    exists (pos n). pose proof (pow2_pos (hb n)). lia.
  - destruct (c54_same_size R F n m W Vm (eq_sym C)) as (e & E & We & Ee & Pe).
    assert (pos e = pos n /\ hb e = hb n) as [P H] by (unfold pos, hb; rewrite Ee; split; [exact Pe|now symmetry]).
    exists [e], Eq. split; [exact E|]. split; [constructor; [now split|constructor]|]. split; [repeat constructor|]. split; [discriminate|]. split; [eauto|].
    intros d Wd Ed. unfold meet. rewrite <- P, <- H. fold (meet d e). split.
    + intros [->|[]]. exists (pos d). pose proof (pow2_pos (hb d)). lia.
    + intros Hd. left. now apply (meet_same d e Wd We ltac:(congruence)).
  - destruct (c53_subnets R F n m W Vm C) as (l & E & Hlen & Hl & Hc & S). exists l, Gt. split; [exact E|]. split; [exact Hl|].
    rewrite Forall_forall in Hl. split.
    { eapply StronglySorted_impl; [|exact S]. intros x y Hx Hy [K _]. destruct (Hl x Hx), (Hl y Hy). apply pos_lt; try assumption. congruence. }
    split. { intros ->. pose proof (pow2_pos (host_bits (subnet_mask n) - host_bits m)). cbn in Hlen. lia. }
    split; [unfold hb; lia|]. intros d Wd Ed.
    assert (In d l <-> exists e, In e l /\ member e (base_addr d)) as ->.
    { split; [intros Hd; exists d; split; [exact Hd|apply member_base]|]. intros (e & He & Hm). destruct (Hl e He) as [We Ee].
      replace d with e; [exact He|]. apply (c21_extensionality R F); try assumption. intros a Va. unfold member in *. rewrite Ed, Ee in *.
      split; intros K i Hi Ht; specialize (K i Hi Ht); specialize (Hm i Hi Ht); congruence. }
    rewrite (Hc (base_addr d) (wf_base d Wd)). fold (pos n). fold (hb n). replace (position m (base_addr d)) with (pos d) by (unfold pos; now rewrite Ed). split.
    + intros K. exists (pos d). pose proof (pow2_pos (hb d)). lia.
    + intros K. destruct (meet_in d n Wd W ltac:(unfold hb; rewrite Ed; lia) K). pose proof (pow2_pos (hb d)). lia.
Qed.
(** The same, of a given result. *)
Lemma resized' (R : Rust) {F} (n : net F) (m : addr F) l o : wf_net n -> valid m -> resize_network n m = Ret (l, o) ->
  Forall (fun e => wf_net e /\ subnet_mask e = m) l /\ StronglySorted by_pos l /\
    l <> [] /\ (hb n <= host_bits m -> exists e, l = [e]) /\
    forall e, wf_net e -> subnet_mask e = m -> (In e l <-> meet e n).
Proof.
  intros W Vm E. destruct (resized R n m W Vm) as (l' & o' & E' & H). assert (l' = l) by congruence. now subst l'.
Qed.
Lemma hb_mask {F} (e : net F) m : subnet_mask e = m -> hb e = host_bits m.
Proof. now intros <-. Qed.

Lemma c84_meets : forall (R : Rust) (F : family) (n : net F) (m : addr F) (l : list (net F)) (o : comparison) (e : net F),
  wf_net n -> valid m -> resize_network n m = Ret (l, o) ->
  (In e l <-> wf_net e /\ subnet_mask e = m /\ exists x,
     position m (base_addr e) <= x < position m (base_addr e) + 2 ^ host_bits m /\
     position (subnet_mask n) (base_addr n) <= x < position (subnet_mask n) (base_addr n) + 2 ^ host_bits (subnet_mask n)).
Proof.
  intros R F n m l o e W Vm E. destruct (resized' R n m l o W Vm E) as (Hl & _ & _ & _ & H). rewrite Forall_forall in Hl. split.
  - intros He. destruct (Hl e He) as [We Ee]. split; [exact We|]. split; [exact Ee|].
    apply (H e We Ee) in He. unfold meet, pos, hb in He. now rewrite Ee in He.
  - intros (We & Ee & K). apply (H e We Ee). unfold meet, pos, hb. now rewrite Ee.
Qed.

Lemma c84_resize_down : forall (R : Rust) (F : family) (n : net F) (m m' : addr F) (l : list (net F)) (ls : list (list (net F))) (o : comparison),
  wf_net n -> valid m -> valid m' -> host_bits m' <= host_bits m <= host_bits (subnet_mask n) ->
  resize_network n m = Ret (l, o) ->
  Forall2 (fun e le => exists o', resize_network e m' = Ret (le, o')) l ls ->
  exists o'', resize_network n m' = Ret (List.concat ls, o'').
Proof.
  intros R F n m m' l ls o W Vm Vm' Hh E Hls. destruct (resized' R n m l o W Vm E) as (Hl & Sl & _ & _ & Ml).
  destruct (resized R n m' W Vm') as (l' & o' & E' & Hl' & Sl' & _ & _ & Ml'). exists o'. rewrite E'. do 2 f_equal.
  rewrite Forall_forall in Hl, Hl'. fold (hb n) in Hh.
  assert (K : forall e le, In e l -> (exists o', resize_network e m' = Ret (le, o')) ->
    Forall (fun e => wf_net e /\ subnet_mask e = m') le /\ StronglySorted by_pos le /\
    forall x, In x le -> pos e <= pos x /\ pos x + 2 ^ hb x <= pos e + 2 ^ hb e).
  { intros e le He (oe & Ee). destruct (Hl e He) as [We Em]. destruct (resized' R e m' le oe We Vm' Ee) as (Hle & Sle & _ & _ & Mle).
    split; [exact Hle|]. split; [exact Sle|]. intros x Hx. rewrite Forall_forall in Hle. destruct (Hle x Hx) as [Wx Ex].
    apply meet_in; [assumption..| |now apply Mle]. rewrite (hb_mask x m' Ex), (hb_mask e m Em). apply Hh. }
  symmetry. apply same_list; [|exact Sl'|].
  - clear - Hls Sl Hl K R. revert Sl Hl K. induction Hls as [|e le l ls He Hls IH]; intros Sl Hl K; cbn [List.concat]; [constructor|].
    inversion Sl as [|? ? S1 F1]; subst.
    assert (Sc : StronglySorted by_pos (List.concat ls)).
    { apply IH; [exact S1|intros x Hx; apply Hl; now right|intros x lx Hx; apply K; now right]. }
    destruct (K e le (or_introl eq_refl) He) as (_ & Sle & Ple).
    assert (forall x y, In x le -> In y (List.concat ls) -> by_pos x y) as C.
    { intros x y Hx Hy. apply in_concat in Hy. destruct Hy as (ly & Hly & Hy).
      assert (exists d, In d l /\ exists o', resize_network d m' = Ret (ly, o')) as (d & Hd & Hr).
      { clear - Hls Hly. induction Hls as [|d ld l ls Hd Hls IH]; [destruct Hly|]. destruct Hly as [<-|Hly].
        - exists d. split; [now left|exact Hd].
        - destruct (IH Hly) as (d' & Hd' & Hr). exists d'. split; [now right|exact Hr]. }
      destruct (K d ly (or_intror Hd) Hr) as (_ & _ & Pl). rewrite Forall_forall in F1. specialize (F1 d Hd).
      destruct (Hl e (or_introl eq_refl)) as [We Ee]. destruct (Hl d (or_intror Hd)) as [Wd Ed].
      pose proof (pos_gap e d We Wd ltac:(congruence) F1). specialize (Ple x Hx). specialize (Pl y Hy). pose proof (pow2_pos (hb x)). unfold by_pos. lia. }
    clear - Sle Sc C. induction Sle as [|x le S1 IH F1]; cbn [app]; [exact Sc|]. constructor.
    + apply IH. intros a b Ha Hb. apply C; [now right|exact Hb].
    + apply Forall_app. split; [exact F1|]. apply Forall_forall. intros y Hy. apply C; [now left|exact Hy].
  - intros x. split.
    + intros Hx. apply in_concat in Hx. destruct Hx as (le & Hle & Hx).
      assert (exists e, In e l /\ exists o', resize_network e m' = Ret (le, o')) as (e & He & Hr).
      { clear - Hls Hle. induction Hls as [|d ld l ls Hd Hls IH]; [destruct Hle|]. destruct Hle as [<-|Hly].
        - exists d. split; [now left|exact Hd].
        - destruct (IH Hly) as (d' & Hd' & Hr). exists d'. split; [now right|exact Hr]. }
      destruct (K e le He Hr) as (Hle' & _ & Pl). rewrite Forall_forall in Hle'. destruct (Hle' x Hx) as [Wx Ex]. destruct (Hl e He) as [We Ee].
      apply (Ml' x Wx Ex). specialize (Pl x Hx). apply (Ml e We Ee) in He.
      pose proof (meet_in e n We W ltac:(rewrite (hb_mask e m Ee); apply Hh) He). apply in_meet; lia.
    + intros Hx. destruct (Hl' x Hx) as [Wx Ex]. apply (Ml' x Wx Ex) in Hx.
      destruct (resized R x m Wx Vm) as (lx & ox & Er & Hlx & _ & _ & Hone & Mlx).
      destruct Hone as [e ->]; [rewrite (hb_mask x m' Ex); apply Hh|]. inversion Hlx as [|? ? [We Ee] _]; subst.
      pose proof (proj1 (Mlx e We eq_refl) (or_introl eq_refl)) as Mx.
      assert (hb x <= hb e) as Hxe by (rewrite (hb_mask x _ eq_refl); apply Hh).
      destruct (meet_in x e Wx We Hxe (meet_sym _ _ Mx)) as [L1 L2].
      assert (He : In e l).
      { apply (Ml e We eq_refl). destruct Hx as (z & Z1 & Z2). exists z. lia. }
      assert (exists le, In le ls /\ exists o', resize_network e (subnet_mask x) = Ret (le, o')) as (le & Hle & oe & Hr).
      { clear - Hls He. induction Hls as [|d ld l ls Hd Hls IH]; [destruct He|]. destruct He as [<-|He].
        - exists ld. split; [now left|exact Hd].
        - destruct (IH He) as (d' & Hd' & Hr). exists d'. split; [now right|exact Hr]. }
      apply in_concat. exists le. split; [exact Hle|].
      destruct (resized' R e (subnet_mask x) le oe We Vm' Hr) as (_ & _ & _ & _ & Me). apply (Me x Wx eq_refl). now apply in_meet.
Qed.

Lemma c84_resize_up : forall (R : Rust) (F : family) (n n' : net F) (m m' : addr F) (l : list (net F)) (o o' : comparison),
  wf_net n -> valid m -> valid m' -> host_bits (subnet_mask n) <= host_bits m <= host_bits m' ->
  resize_network n m = Ret ([n'], o) -> resize_network n' m' = Ret (l, o') ->
  exists o'', resize_network n m' = Ret (l, o'').
Proof.
  intros R F n n' m m' l o o' W Vm Vm' Hh E E'. fold (hb n) in Hh.
  destruct (resized' R n m _ o W Vm E) as (Hl & _ & _ & _ & Ml). inversion Hl as [|? ? [Wn' En'] _]; subst.
  pose proof (proj1 (Ml n' Wn' eq_refl) (or_introl eq_refl)) as Mn. fold (hb n') in Hh.
  destruct (meet_in n n' W Wn' ltac:(apply Hh) (meet_sym _ _ Mn)) as [L1 L2].
  destruct (resized' R n' m' l o' Wn' Vm' E') as (Hl1 & S1 & _ & _ & M1).
  destruct (resized R n m' W Vm') as (l2 & o2 & E2 & Hl2 & S2 & _ & _ & M2). exists o2. rewrite E2. do 2 f_equal.
  apply same_list; [assumption..|]. rewrite Forall_forall in Hl1, Hl2. pose proof (pow2_pos (hb n)) as Hp. intros e. split; intros He.
  - destruct (Hl2 e He) as [We Ee]. apply (M1 e We Ee). apply (M2 e We Ee) in He. destruct He as (z & Z1 & Z2). exists z. lia.
  - destruct (Hl1 e He) as [We Ee]. apply (M2 e We Ee). apply (M1 e We Ee) in He.
    destruct (meet_in n' e Wn' We ltac:(rewrite (hb_mask e m' Ee); apply Hh) (meet_sym _ _ He)). exists (pos n). lia.
Qed.

Lemma c84_resize_detour : forall (R : Rust) (F : family) (n e e' : net F) (m m' : addr F) (l le l' : list (net F)) (o o' o'' : comparison),
  wf_net n -> valid m -> valid m' ->
  resize_network n m = Ret (l, o) -> resize_network n m' = Ret (l', o'') ->
  (host_bits (subnet_mask n) <= host_bits m' <= host_bits m -> In e l -> resize_network e m' = Ret (le, o') ->
   forall x, In x l' -> In x le) /\
  (host_bits m <= host_bits m' <= host_bits (subnet_mask n) ->
   (In e l -> resize_network e m' = Ret (le, o') -> forall x, In x le -> In x l') /\
   (In e' l' -> exists d, In d l /\ exists o1, resize_network d m' = Ret ([e'], o1))).
Proof.
  intros R F n e e' m m' l le l' o o' o'' W Vm Vm' E E'. fold (hb n).
  destruct (resized' R n m l o W Vm E) as (Hl & _ & _ & _ & Ml). destruct (resized' R n m' l' o'' W Vm' E') as (Hl' & _ & _ & _ & Ml').
  rewrite Forall_forall in Hl, Hl'. pose proof (pow2_pos (hb n)) as Hp. split.
  - intros Hh He Er x Hx. destruct (Hl e He) as [We Ee]. destruct (resized' R e m' le o' We Vm' Er) as (_ & _ & _ & _ & Me).
    destruct (Hl' x Hx) as [Wx Ex]. apply (Me x Wx Ex). apply (Ml e We Ee) in He. apply (Ml' x Wx Ex) in Hx.
    destruct (meet_in n e W We ltac:(rewrite (hb_mask e m Ee); lia) (meet_sym _ _ He)).
    destruct Hx as (z & Z1 & Z2). exists z. lia.
  - intros Hh. split.
    + intros He Er x Hx. destruct (Hl e He) as [We Ee]. destruct (resized' R e m' le o' We Vm' Er) as (Hle & _ & _ & _ & Me).
      rewrite Forall_forall in Hle. destruct (Hle x Hx) as [Wx Ex]. apply (Ml' x Wx Ex). apply (Ml e We Ee) in He. apply (Me x Wx Ex) in Hx.
      destruct (meet_in e n We W ltac:(rewrite (hb_mask e m Ee); lia) He). destruct Hx as (z & Z1 & Z2). exists z. lia.
    + intros He. destruct (Hl' e' He) as [We Ee]. apply (Ml' e' We Ee) in He.
      destruct (resized R e' m We Vm) as (ld & od & Ed & Hld & _ & Hne & _ & Md). destruct ld as [|d ld]; [congruence|].
      rewrite Forall_forall in Hld. destruct (Hld d (or_introl eq_refl)) as [Wd Em].
      pose proof (proj1 (Md d Wd Em) (or_introl eq_refl)) as Mde.
      destruct (meet_in d e' Wd We ltac:(rewrite (hb_mask d m Em), (hb_mask e' m' Ee); lia) Mde).
      destruct (meet_in e' n We W ltac:(rewrite (hb_mask e' m' Ee); lia) He).
      exists d. split; [apply (Ml d Wd Em); apply in_meet; lia|].
      destruct (resized R d m' Wd Vm') as (lx & ox & Ex & _ & _ & _ & Hone & Mx). destruct Hone as [x ->]; [rewrite (hb_mask d m Em); lia|].
      exists ox. rewrite Ex. do 3 f_equal. destruct (proj2 (Mx e' We Ee) (meet_sym _ _ Mde)) as [->|[]]. reflexivity.
Qed.

Lemma range_facts (R : Rust) {F} (a b : addr F) l : valid a -> valid b -> range_to_subnets a b = Ret l ->
  Forall (fun n => exists p, is_cidr n p) l /\
  forall c : addr F, valid c -> (N.min (value a) (value b) <= value c <= N.max (value a) (value b) <-> exists n, In n l /\ member n c).
Proof.
  intros Va Vb E. pose proof (proj1 (c37_returns_iff R F a b Va Vb) (ex_intro _ l E)) as Hne.
  assert (N.max (value a) (value b) < 2 ^ width F) as Hlt by (pose proof (value_lt a Va); pose proof (value_lt b Vb); lia).
  destruct (c35_covers_exactly R F a b Va Vb ltac:(lia)) as (l' & E' & Hc & Hm & _). assert (l' = l) by congruence. subst l'. now split.
Qed.

Lemma c84_derange : forall (R : Rust) (F : family) (a b b' c : addr F) (l1 l2 l : list (net F)),
  valid a -> valid b -> valid b' -> valid c ->
  value a <= value b -> value b' = value b + 1 -> value b' <= value c ->
  range_to_subnets a b = Ret l1 -> range_to_subnets b' c = Ret l2 -> range_to_subnets a c = Ret l ->
  minimize_subnets (l1 ++ l2) = Ret l.
Proof.
  intros R F a b b' c l1 l2 l Va Vb Vb' Vc H1 H2 H3 E1 E2 E.
  destruct (range_facts R a b l1 Va Vb E1) as [C1 M1]. destruct (range_facts R b' c l2 Vb' Vc E2) as [C2 M2].
  destruct (range_facts R a c l Va Vc E) as [C M].
  rewrite <- (c64_derange R F a c l l Va Vc E ltac:(reflexivity)). apply (c43_canonical R R); [exact C|now apply Forall_app|].
  intros x Vx. rewrite <- (M x Vx). split.
  - intros (e & He & Me). apply in_app_or in He. destruct He as [He|He].
    + pose proof (proj2 (M1 x Vx) (ex_intro _ e (conj He Me))). lia.
    + pose proof (proj2 (M2 x Vx) (ex_intro _ e (conj He Me))). lia.
  - intros Hx. destruct (N.le_gt_cases (value x) (value b)) as [L|L].
    + destruct (proj1 (M1 x Vx)) as (e & He & Me); [lia|]. exists e. split; [apply in_or_app; now left|exact Me].
    + destruct (proj1 (M2 x Vx)) as (e & He & Me); [lia|]. exists e. split; [apply in_or_app; now right|exact Me].
Qed.

Lemma c84_enumerate : forall (R : Rust) (F : family) (n : net F) (p q : N) (m : addr F) (l : list (net F)) (o : comparison) (ls : list (list (addr F))),
  is_cidr n p -> valid m -> contiguous F (value m) q -> p <= q ->
  resize_network n m = Ret (l, o) -> Forall2 (fun e le => enumerate_net e = Ret le) l ls ->
  enumerate_net n = Ret (List.concat ls).
Proof.
  intros R F n p q m l o ls Hn Vm Hm Hpq E Hls.
  destruct (c55_lists_exactly R F n (proj1 Hn)) as (L & EL & HL & SL). rewrite EL. f_equal.
  assert (K : (forall c : addr F, valid c -> (member n c <-> exists e, In e l /\ member e c)) /\ Forall wf_net l /\
    StronglySorted (fun e e' : net F => forall x y, valid x -> valid y -> member e x -> member e' y -> value x < value y) l).
  { apply N.lt_eq_cases in Hpq. destruct Hpq as [Hpq|Hpq].
    - destruct (c53_subnets_cidr R F n m p q Hn Vm Hm Hpq) as (l' & E' & _ & Hl & Hc & S). assert (l' = l) by congruence. subst l'.
      split; [exact Hc|]. split; [|exact S]. eapply Forall_impl; [|exact Hl]. intros e He. apply He.
    - subst q. assert (m = subnet_mask n) as ->.
      { apply (value_inj (R := R)); [exact Vm|apply Hn|]. destruct Hm as [_ ->]. pose proof (proj2 Hn) as Hp.
        apply (wf_prefix n (proj1 Hn)) in Hp. symmetry. apply Hp. }
      pose proof (c54_own_mask R F n (proj1 Hn)) as E'. assert (l = [n]) as -> by congruence.
      split; [intros c _; split; [intros M; exists n; split; [now left|exact M]|intros (e & [<-|[]] & M); exact M]|].
      split; [constructor; [apply Hn|constructor]|repeat constructor]. }
  destruct K as (Kc & Kw & Ks). clear E. rewrite Forall_forall in Kw.
  assert (Hall : forall e le, In e l -> enumerate_net e = Ret le -> (forall a, In a le <-> valid a /\ member e a) /\ StronglySorted (fun a b : addr F => value a < value b) le).
  { intros e le He Ee. destruct (c55_lists_exactly R F e (Kw e He)) as (le' & E' & A & B). assert (le' = le) by congruence. subst le'. now split. }
  apply (strictly_sorted_ext (fun a b : addr F => value a < value b)); [intros x; apply N.lt_irrefl|intros x y z; apply N.lt_trans|exact SL| |].
  - clear - Hls Ks Hall. revert Ks Hall. induction Hls as [|e le l ls He Hls IH]; intros Ks Hall; cbn [List.concat]; [constructor|].
    inversion Ks as [|? ? S1 F1]; subst. destruct (Hall e le (or_introl eq_refl) He) as [Me Se].
    assert (Sc : StronglySorted (fun a b : addr F => value a < value b) (List.concat ls)) by (apply IH; [exact S1|intros x lx Hx; apply Hall; now right]).
    assert (C : forall x y, In x le -> In y (List.concat ls) -> value x < value y).
    { intros x y Hx Hy. apply in_concat in Hy. destruct Hy as (ly & Hly & Hy).
      assert (exists d, In d l /\ enumerate_net d = Ret ly) as (d & Hd & Hr).
      { clear - Hls Hly. induction Hls as [|d ld l ls Hd Hls IH]; [destruct Hly|]. destruct Hly as [<-|Hly].
        - exists d. split; [now left|exact Hd].
        - destruct (IH Hly) as (d' & Hd' & Hr). exists d'. split; [now right|exact Hr]. }
      rewrite Forall_forall in F1. destruct (Hall d ly (or_intror Hd) Hr) as [Md _]. apply Me in Hx. apply Md in Hy.
      apply (F1 d Hd x y); [apply Hx|apply Hy|apply Hx|apply Hy]. }
    clear - Se Sc C. induction Se as [|x le S1 IH F1]; cbn [app]; [exact Sc|]. constructor.
    + apply IH. intros a b Ha Hb. apply C; [now right|exact Hb].
    + apply Forall_app. split; [exact F1|]. apply Forall_forall. intros y Hy. apply C; [now left|exact Hy].
  - intros x. rewrite HL. rewrite in_concat. split.
    + intros [Vx Mx]. apply (Kc x Vx) in Mx. destruct Mx as (e & He & Me).
      assert (exists le, In le ls /\ enumerate_net e = Ret le) as (le & Hle & Hr).
      { clear - Hls He. induction Hls as [|d ld l ls Hd Hls IH]; [destruct He|]. destruct He as [<-|He].
        - exists ld. split; [now left|exact Hd].
        - destruct (IH He) as (d' & Hd' & Hr). exists d'. split; [now right|exact Hr]. }
      exists le. split; [exact Hle|]. apply (Hall e le He Hr). now split.
    + intros (le & Hle & Hx).
      assert (exists d, In d l /\ enumerate_net d = Ret le) as (d & Hd & Hr).
      { clear - Hls Hle. induction Hls as [|d ld l ls Hd Hls IH]; [destruct Hle|]. destruct Hle as [<-|Hly].
        - exists d. split; [now left|exact Hd].
        - destruct (IH Hly) as (d' & Hd' & Hr). exists d'. split; [now right|exact Hr]. }
      apply (Hall d le Hd Hr) in Hx. split; [apply Hx|]. apply (Kc x (proj1 Hx)). exists d. split; [exact Hd|apply Hx].
Qed.

(** ** Splitting *)
Lemma total_cons c cs : total (c :: cs) = 2 ^ piece c + total cs.
Proof. reflexivity. Qed.
Lemma total_app cs ds : total (cs ++ ds) = total cs + total ds.
Proof. induction cs as [|c cs IH]; [reflexivity|]. cbn [app]. rewrite !total_cons, IH. lia. Qed.
Lemma total_perm cs ds : Permutation cs ds -> total cs = total ds.
Proof. induction 1; rewrite ?total_cons; lia. Qed.
Lemma total_repeat c k : total (repeat c k) = N.of_nat k * 2 ^ piece c.
Proof. induction k as [|k IH]; [reflexivity|]. cbn [repeat]. rewrite total_cons, IH. lia. Qed.

(** The requests before the [i]th of a descending list. *)
Lemma desc_firstn cc : StronglySorted (fun c c' => c' <= c)%Z cc -> forall i c, nth_error cc i = Some c ->
  exists k, (k < count_occ Z.eq_dec cc c)%nat /\ firstn i cc = filter (Z.ltb c) cc ++ repeat c k.
Proof.
  induction 1 as [|d cc Scc IH Hf]; intros [|i] c Ei; cbn [nth_error] in Ei; try discriminate.
  - injection Ei as ->. exists 0%nat. cbn [count_occ firstn filter repeat]. destruct (Z.eq_dec c c); [|congruence]. split; [lia|].
    rewrite Z.ltb_irrefl, app_nil_r. symmetry. rewrite Forall_forall in Hf. clear - Hf. induction cc as [|x cc IH]; [reflexivity|]. cbn [filter].
    rewrite (proj2 (Z.ltb_ge c x)) by (apply Hf; now left). apply IH. intros y Hy. apply Hf. now right.
  - destruct (IH i c Ei) as (k & Hk & E). cbn [count_occ firstn filter]. rewrite E.
    assert (c <= d)%Z as Hcd by (rewrite Forall_forall in Hf; apply Hf; eapply nth_error_In; eassumption).
    destruct (Z.ltb_spec c d) as [L|L].
    + exists k. destruct (Z.eq_dec d c); [lia|]. split; [exact Hk|reflexivity].
    + assert (d = c) by lia. subst d. destruct (Z.eq_dec c c); [|congruence]. exists (S k). split; [lia|].
      assert (filter (Z.ltb c) cc = []) as ->.
      { rewrite Forall_forall in Hf. clear - Hf. induction cc as [|x cc IH]; [reflexivity|]. cbn [filter].
        rewrite (proj2 (Z.ltb_ge c x)) by (apply Hf; now left). apply IH. intros y Hy. apply Hf. now right. }
      reflexivity.
Qed.

Lemma run_nth {F} (ns : list (net F)) : forall cc x i c m, run x ns -> List.length cc = List.length ns ->
  (forall d e, In (d, e) (combine cc ns) -> cidr_prefix e = Some (width F - piece d) /\ piece d <= width F) ->
  nth_error cc i = Some c -> nth_error ns i = Some m -> value (base_addr m) = x + total (firstn i cc).
Proof.
  induction ns as [|e ns IH]; intros [|d cc] x [|i] c m Hr Hlen Hp Ec Em; try discriminate; cbn [run nth_error firstn] in *.
  - injection Em as ->. destruct Hr as (p & _ & -> & _). cbn. lia.
  - destruct Hr as (p & [_ Hpe] & Ex & Hr). destruct (Hp d e (or_introl eq_refl)) as [Ed Ld]. assert (width F - p = piece d) as Ew.
    { assert (p = width F - piece d) by congruence. lia. }
    rewrite Ew in Hr. assert (Hp' : forall d e, In (d, e) (combine cc ns) -> cidr_prefix e = Some (width F - piece d) /\ piece d <= width F) by (intros d' e' H'; apply Hp; now right).
    assert (Hl' : List.length cc = List.length ns) by (cbn in Hlen; lia).
    rewrite (IH cc _ i c m Hr Hl' Hp' Ec Em), total_cons. lia.
Qed.

Lemma filter_perm {X} (f : X -> bool) l l' : Permutation l l' -> Permutation (filter f l) (filter f l').
Proof.
  induction 1 as [|x l l' P IH|x y l|l l' l'' P1 IH1 P2 IH2]; cbn [filter]; [constructor| | |now transitivity (filter f l')].
  - destruct (f x); [now constructor|exact IH].
  - destruct (f x), (f y); try reflexivity. constructor.
Qed.
Lemma combine_nth_error {X Y} (xs : list X) : forall (ys : list Y) x y, In (x, y) (combine xs ys) ->
  exists i, nth_error xs i = Some x /\ nth_error ys i = Some y.
Proof.
  induction xs as [|x0 xs IH]; intros [|y0 ys] x y H; try destruct H as [].
  - injection H as <- <-. now exists 0%nat.
  - destruct (IH ys x y H) as (i & A & B). now exists (S i).
Qed.
Lemma Forall2_combine {X Y} (P : X -> Y -> Prop) (xs : list X) : forall ys, List.length xs = List.length ys ->
  (forall x y, In (x, y) (combine xs ys) -> P x y) -> Forall2 P xs ys.
Proof.
  induction xs as [|x xs IH]; intros [|y ys] E H; try discriminate; constructor.
  - apply H. now left.
  - apply IH; [injection E; trivial|]. intros; apply H. now right.
Qed.
Lemma Forall2_len {X Y} (P : X -> Y -> Prop) xs ys : Forall2 P xs ys -> List.length xs = List.length ys.
Proof. induction 1; cbn [List.length]; congruence. Qed.
Lemma Forall2_in {X Y} (P : X -> Y -> Prop) xs ys x y : Forall2 P xs ys -> In (x, y) (combine xs ys) -> P x y.
Proof. intros H. induction H as [|a b xs ys Hab H IH]; intros K; [destruct K|destruct K as [K|K]; [now injection K as <- <-|now apply IH]]. Qed.

Lemma c84_split_where : forall (R : Rust) (F : family) (n : net F) (cs : list Z) (r : list (net F)),
  wf_net n -> split_subnet n cs = Ret (Some r) ->
  Forall2 (fun c m => exists k, (k < count_occ Z.eq_dec cs c)%nat /\
    value (base_addr m) = run_start n cs + total (filter (Z.ltb c) cs) + N.of_nat k * 2 ^ piece c) cs r.
Proof.
  intros R F n cs r W E. pose proof (proj1 (c50_succeeds_iff R F n cs W) (ex_intro _ r E)) as Hlt.
  destruct (proj1 (split_parts R F n cs W) Hlt) as (r0 & ns & E0 & _ & Hr & _ & _ & _ & cc & Sc & Pc & Lc & Pcomb).
  assert (r0 = r) by congruence. subst r0. pose proof (c46_one_per_request R F n cs r W E) as F2.
  apply Forall2_combine; [now apply Forall2_len in F2|]. intros c m Hcm.
  pose proof (Permutation_in _ Pcomb Hcm) as Hcm'. apply combine_nth_error in Hcm'. destruct Hcm' as (i & Ec & Em).
  destruct (desc_firstn cc Sc i c Ec) as (k & Hk & Ef). exists k. split.
  - now rewrite <- (proj1 (Permutation_count_occ Z.eq_dec cc cs) Pc c).
  - rewrite (run_nth ns cc (run_start n cs) i c m Hr Lc); [|..|exact Ec|exact Em].
    + rewrite Ef, total_app, total_repeat, (total_perm _ _ (filter_perm (Z.ltb c) _ _ Pc)). lia.
    + intros d e Hde. apply (Permutation_in _ (Permutation_sym Pcomb)) in Hde. destruct (Forall2_in _ _ _ _ _ F2 Hde) as [L [_ Ep]]. split; [exact Ep|lia].
Qed.

Lemma c84_split_again : forall (R : Rust) (F : family) (n : net F) (cs : list Z) (r : list (net F)),
  wf_net n -> split_subnet n cs = Ret (Some r) ->
  Forall2 (fun c m => split_subnet m [c] = Ret (Some [m])) cs r.
Proof.
  intros R F n cs r W E. pose proof (c46_one_per_request R F n cs r W E) as F2.
  destruct (c48_disjoint_run R F n cs r W E) as [_ Hrun]. pose proof (proj1 (c50_succeeds_iff R F n cs W) (ex_intro _ r E)) as Hlt.
  apply Forall2_combine; [now apply Forall2_len in F2|]. intros c m Hcm.
  destruct (Forall2_in _ _ _ _ _ F2 Hcm) as [L Hm]. pose proof (proj1 Hm) as Wm.
  assert (Hs : run_start m [c] = value (base_addr m)).
  { apply (proj1 (c48_starts_at_base F m _ [c] Hm)). unfold largest. cbn [map fold_right]. lia. }
  assert (Ht : total [c] = 2 ^ piece c) by (cbn; lia).
  assert (He : run_start m [c] + total [c] < 2 ^ width F).
  { rewrite Hs, Ht. destruct (c25_last_addr R F m Wm) as (h & _ & Hh).
    assert (In m r) as Im by (eapply in_combine_r; exact Hcm).
    pose proof (proj1 (Hrun h (proj1 Hh)) (ex_intro _ m (conj Im (proj1 (proj2 Hh))))) as B.
    pose proof (pow2_pos (piece c)) as Hp.
    destruct (value_surj (F := F) (value (base_addr m) + 2 ^ piece c - 1)) as (z & Vz & Ez).
    { destruct (base_aligned m _ Hm) as (_ & Hfit & _). replace (width F - (width F - piece c)) with (piece c) in Hfit by lia. lia. }
    assert (member m z) as Mz by (apply (member_interval m _ z Hm Vz); replace (width F - (width F - piece c)) with (piece c) by lia; lia).
    pose proof (proj2 (proj2 Hh) z Vz Mz). lia. }
  destruct (proj2 (c50_succeeds_iff R F m [c] Wm) He) as [r' E']. rewrite E'. do 2 f_equal.
  pose proof (c84_split_where R F m [c] r' Wm E') as Hw. pose proof (c46_one_per_request R F m [c] r' Wm E') as F2'.
  inversion F2' as [|? m' ? r1 [_ Hm'] F3]; subst. inversion F3; subst. f_equal.
  inversion Hw as [|? ? ? ? (k & Hk & Ek) _]; subst. cbn [count_occ filter] in *. destruct (Z.eq_dec c c); [|congruence]. rewrite Z.ltb_irrefl in Ek.
  assert (k = 0%nat) by lia. subst k. apply (cidr_same m' m _ Hm' Hm). rewrite Ek, Hs. cbn. lia.
Qed.

(** With different requests, the result is determined by where the networks are. *)
Definition placed {F} (n : net F) (cs : list Z) (c : Z) (m : net F) : Prop :=
  piece c < width F /\ is_cidr m (width F - piece c) /\ value (base_addr m) = run_start n cs + total (filter (Z.ltb c) cs).
Lemma split_placed (R : Rust) {F} (n : net F) cs r : wf_net n -> NoDup cs -> split_subnet n cs = Ret (Some r) ->
  Forall2 (placed n cs) cs r.
Proof.
  intros W Hnd E. pose proof (c46_one_per_request R F n cs r W E) as F2. pose proof (c84_split_where R F n cs r W E) as Fw.
  apply Forall2_combine; [now apply Forall2_len in F2|]. intros c m H. destruct (Forall2_in _ _ _ _ _ F2 H) as [A B].
  destruct (Forall2_in _ _ _ _ _ Fw H) as (k & Hk & Ek). split; [exact A|]. split; [exact B|].
  pose proof (proj1 (NoDup_count_occ Z.eq_dec cs) Hnd c). assert (k = 0%nat) by lia. subst k. rewrite Ek. cbn. lia.
Qed.
Lemma placed_same {F} (n : net F) cs l r r' : Forall2 (placed n cs) l r -> Forall2 (placed n cs) l r' -> r = r'.
Proof.
  intros H. revert r'. induction H as [|c m l r (A & B & C) H IH]; intros r' H'; inversion H' as [|? m' ? r1 (A' & B' & C') H1]; subst; [reflexivity|].
  f_equal; [|now apply IH]. apply (cidr_same m m' _ B B'). congruence.
Qed.

Lemma piece_mono c d : (d <= c)%Z -> piece d <= piece c.
Proof. intros H. unfold piece. apply N.log2_up_le_mono. lia. Qed.
Lemma largest_le cs k : (forall c, In c cs -> piece c <= k) -> largest cs <= k.
Proof. unfold largest. induction cs as [|c cs IH]; intros H; cbn [map fold_right]; [lia|]. pose proof (H c (or_introl eq_refl)). assert (fold_right N.max 0 (map piece cs) <= k) by (apply IH; intros x Hx; apply H; now right). lia. Qed.
Lemma largest_ge cs c : In c cs -> piece c <= largest cs.
Proof. unfold largest. induction cs as [|d cs IH]; [intros []|]. intros [->|H]; cbn [map fold_right]; [lia|]. specialize (IH H). lia. Qed.
Lemma largest_app cs ds : largest (cs ++ ds) = N.max (largest cs) (largest ds).
Proof. unfold largest. induction cs as [|c cs IH]; cbn [app map fold_right]; [lia|]. rewrite IH. lia. Qed.
Lemma multiple_pow k j x : k <= j -> x mod 2 ^ j = 0 -> x mod 2 ^ k = 0.
Proof. intros H E. now apply (mod_pow_le _ _ j H). Qed.
Lemma total_multiple k cs : (forall c, In c cs -> k <= piece c) -> total cs mod 2 ^ k = 0.
Proof.
  pose proof (pow2_pos k) as Hp. induction cs as [|c cs IH]; intros H; [now apply N.mod_0_l; lia|]. rewrite total_cons, N.add_mod by lia.
  rewrite IH by (intros x Hx; apply H; now right). rewrite N.add_0_r, N.mod_mod by lia.
  apply (multiple_pow k (piece c)); [apply H; now left|]. apply N.mod_same. pose proof (pow2_pos (piece c)). lia.
Qed.
Lemma filter_none {X} (f : X -> bool) l : (forall x, In x l -> f x = false) -> filter f l = [].
Proof. induction l as [|x l IH]; intros H; [reflexivity|]. cbn [filter]. rewrite (H x (or_introl eq_refl)). apply IH. intros y Hy. apply H. now right. Qed.
Lemma filter_all {X} (f : X -> bool) l : (forall x, In x l -> f x = true) -> filter f l = l.
Proof. induction l as [|x l IH]; intros H; [reflexivity|]. cbn [filter]. rewrite (H x (or_introl eq_refl)). f_equal. apply IH. intros y Hy. apply H. now right. Qed.
Lemma Forall2_weaken {X Y} (P Q : X -> Y -> Prop) xs ys : (forall x y, In x xs -> P x y -> Q x y) -> Forall2 P xs ys -> Forall2 Q xs ys.
Proof. intros H F2. induction F2 as [|x y xs ys Hxy F2 IH]; constructor; [apply H; [now left|exact Hxy]|]. apply IH. intros a b Ha. apply H. now right. Qed.

Lemma c84_split_later : forall (R : Rust) (F : family) (n h : net F) (cs ds : list Z) (r : list (net F)),
  wf_net n -> cs <> [] -> NoDup cs -> NoDup ds -> (forall c d, In c cs -> In d ds -> d < c)%Z ->
  is_cidr h (width F) -> value (base_addr h) = run_start n cs + total cs ->
  (split_subnet n (cs ++ ds) = Ret (Some r) <->
   exists r1 r2, r = r1 ++ r2 /\ split_subnet n cs = Ret (Some r1) /\ split_subnet h ds = Ret (Some r2)).
Proof.
  intros R F n h cs ds r W Hne Hnd Hnd' Hlt Hh Eh. pose proof (proj1 Hh) as Wh.
  destruct cs as [|c0 cs0] eqn:Ecs; [congruence|]. rewrite <- Ecs in *. assert (In c0 cs) as H0 by (rewrite Ecs; now left). clear Ecs Hne.
  assert (Hpc : forall c d, In c cs -> In d ds -> piece d <= piece c) by (intros c d Hc Hd; apply piece_mono; specialize (Hlt c d Hc Hd); lia).
  assert (Hl : forall c, In c cs -> largest ds <= piece c) by (intros c Hc; apply largest_le; intros d Hd; now apply Hpc).
  assert (Hs : run_start n (cs ++ ds) = run_start n cs).
  { unfold run_start. rewrite largest_app. pose proof (Hl c0 H0). pose proof (largest_ge cs c0 H0). now rewrite N.max_l by lia. }
  assert (Hy : run_start h ds = run_start n cs + total cs).
  { unfold run_start at 1. rewrite Eh. enough ((run_start n cs + total cs) mod 2 ^ largest ds = 0) as -> by lia.
    pose proof (pow2_pos (largest ds)) as Hp. rewrite N.add_mod, (total_multiple _ cs Hl), N.add_0_r, N.mod_mod by lia.
    apply (multiple_pow _ (largest cs)); [pose proof (Hl c0 H0); pose proof (largest_ge cs c0 H0); lia|].
    unfold run_start. pose proof (pow2_pos (largest cs)) as Hp'. set (b := value (base_addr n)).
    generalize (2 ^ largest cs) Hp'. intros q Hq. pose proof (N.div_mod b q ltac:(lia)) as D.
    replace (b - b mod q) with (b / q * q) by (rewrite N.mul_comm; revert D; generalize (q * (b / q)) (b mod q); clear; lia).
    apply N.mod_mul. lia. }
  assert (Hnd2 : NoDup (cs ++ ds)).
  { clear - Hnd Hnd' Hlt. induction Hnd as [|c cs Hc Hnd IH]; [exact Hnd'|]. cbn [app]. constructor.
    - intros H. apply in_app_or in H. destruct H as [H|H]; [contradiction|]. specialize (Hlt c c (or_introl eq_refl) H). lia.
    - apply IH. intros x d Hx. apply Hlt. now right. }
  assert (Key : forall r1 r2, split_subnet n cs = Ret (Some r1) -> split_subnet h ds = Ret (Some r2) -> Forall2 (placed n (cs ++ ds)) (cs ++ ds) (r1 ++ r2)).
  { intros r1 r2 E1 E2. pose proof (split_placed R n cs r1 W Hnd E1) as P1. pose proof (split_placed R h ds r2 Wh Hnd' E2) as P2. apply Forall2_app.
    - eapply Forall2_weaken; [|exact P1]. intros c m Hc (A & B & C). split; [exact A|]. split; [exact B|]. rewrite C, Hs, filter_app.
      rewrite (filter_none _ ds) by (intros d Hd; apply Z.ltb_ge; specialize (Hlt c d Hc Hd); lia). now rewrite app_nil_r.
    - eapply Forall2_weaken; [|exact P2]. intros d m Hd (A & B & C). split; [exact A|]. split; [exact B|]. rewrite C, Hs, Hy, filter_app, total_app.
      rewrite (filter_all _ cs) by (intros c Hc; apply Z.ltb_lt; now apply Hlt). lia. }
  assert (Hsum : run_start n (cs ++ ds) + total (cs ++ ds) = run_start h ds + total ds) by (rewrite Hs, Hy, total_app; lia).
  split.
  - intros E. pose proof (proj1 (c50_succeeds_iff R F n (cs ++ ds) W) (ex_intro _ r E)) as L.
    destruct (proj2 (c50_succeeds_iff R F h ds Wh)) as [r2 E2]; [lia|].
    destruct (proj2 (c50_succeeds_iff R F n cs W)) as [r1 E1]; [rewrite Hs, total_app in L; lia|].
    exists r1, r2. split; [|now split]. apply (placed_same n (cs ++ ds) (cs ++ ds)); [|now apply Key].
    now apply (split_placed R).
  - intros (r1 & r2 & -> & E1 & E2). destruct (proj2 (c50_succeeds_iff R F n (cs ++ ds) W)) as [r' E'].
    { rewrite Hsum. apply (c50_succeeds_iff R F h ds Wh). now exists r2. }
    rewrite E'. do 2 f_equal. apply (placed_same n (cs ++ ds) (cs ++ ds)); [now apply (split_placed R)|now apply Key].
Qed.
