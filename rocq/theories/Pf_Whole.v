(** * Pf_Whole: proofs for P_Whole *)
From Verif Require Import RustBase Addr BitManip Cidr Net Parse Derange Minimize Split Resize Console ShowNet Main Messages Process.
From Verif Require Import SpecIO SpecMessages SpecWhole Bits Laws NetFacts SetFacts Family Blocks DerangeFacts SplitFacts ResizeFacts Order TextFacts.
From Verif Require Import Pf_Text Pf_Net Pf_Minimize Pf_Netspec Pf_Derange Pf_Split Pf_Resize Pf_Enum Pf_Show Pf_Main Pf_Process Pf_Messages Pf_Runs Pf_Join Pf_Move Pf_Refuse Demo.
From Coq Require Import ZifyBool ZifyNat ZifyN.
Ltac Zify.zify_post_hook ::= idtac.

(** ** Texts *)
Lemma numeral_from_app r s : forall acc t, numeral_from r acc (s ++ t) =
  match numeral_from r acc s with Some y => numeral_from r y t | None => None end.
Proof.
  induction s as [|c s IH]; intros acc t; cbn [app numeral_from]; [reflexivity|].
  destruct (digit_below r c); [apply IH|reflexivity].
Qed.
Lemma digit_lower c c' d : digit c = Some d -> digit c' = Some d -> ~ upper_case c -> ~ upper_case c' -> c = c'.
Proof.
  unfold upper_case. intros H H' N N'.
  assert (K : forall c d, digit c = Some d -> ~ In c (lit "ABCDEF") -> c = digit_char d).
  { clear. intros c d H N. destruct c as [[] [] [] [] [] [] [] []]; cbn in H; try discriminate; injection H as <-;
      first [reflexivity|exfalso; apply N; cbn; tauto]. }
  rewrite (K c d H N), (K c' d H' N'). reflexivity.
Qed.
Lemma digit_zero c : digit c = Some 0 -> c = "0"%char.
Proof. destruct c as [[] [] [] [] [] [] [] []]; cbn; intros; congruence. Qed.
Lemma below_digit r c d : digit_below r c = Some d -> digit c = Some d /\ d < r.
Proof. unfold digit_below. destruct (digit c) as [e|]; [|discriminate]. destruct (N.ltb_spec e r); [|discriminate]. intros [= ->]. auto. Qed.
Lemma numeral_pos r c s x : 1 <= r -> c <> "0"%char -> numeral r (c :: s) = Some x -> 0 < x.
Proof.
  intros Hr Hc. unfold numeral. cbn [numeral_from]. destruct (digit_below r c) as [d|] eqn:D; [|discriminate]. intros H.
  apply below_digit in D. apply numeral_from_ge in H; [|exact Hr]. assert (d <> 0) by (intros ->; apply Hc, digit_zero, D). lia.
Qed.
Lemma usual_snoc r x s c : 1 <= r -> s <> [] -> usual r x (s ++ [c]) -> exists y d,
  usual r y s /\ digit c = Some d /\ d < r /\ ~ upper_case c /\ x = y * r + d /\ 0 < y.
Proof.
  intros Hr Hs (Hn & Hu & Hz). destruct s as [|c0 s]; [congruence|]. unfold numeral in Hn. cbn [app] in Hn.
  change (c0 :: s ++ [c]) with ((c0 :: s) ++ [c]) in Hn. rewrite numeral_from_app in Hn.
  destruct (numeral_from r 0 (c0 :: s)) as [y|] eqn:Ey; [|discriminate]. cbn [numeral_from] in Hn.
  destruct (digit_below r c) as [d|] eqn:D; [|discriminate]. injection Hn as <-. apply below_digit in D.
  rewrite Forall_app in Hu. destruct Hu as [Hu Hc]. exists y, d.
  assert (Hc0 : c0 <> "0"%char). { intros ->. specialize (Hz (s ++ [c]) eq_refl). destruct s; discriminate. }
  split; [|split; [apply D|split; [apply D|split; [now inversion Hc|split; [reflexivity|apply (numeral_pos r c0 s); assumption]]]]].
  split; [exact Ey|]. split; [exact Hu|]. intros s' E. congruence.
Qed.
Lemma usual_one r x c : usual r x [c] -> digit c = Some x /\ x < r /\ ~ upper_case c.
Proof.
  intros (Hn & Hu & _). unfold numeral in Hn. cbn [numeral_from] in Hn. destruct (digit_below r c) as [d|] eqn:D; [|discriminate].
  apply below_digit in D. assert (d = x) as -> by (injection Hn; lia). split; [apply D|]. split; [apply D|]. now inversion Hu.
Qed.
Lemma usual_nonempty r x s : usual r x s -> s <> [].
Proof. intros (H & _) ->. discriminate. Qed.
Lemma usual_unique r : 1 <= r -> forall s x s', usual r x s -> usual r x s' -> s = s'.
Proof.
  intros Hr s. induction s as [|c s IH] using rev_ind; intros x s' H H'; [now apply usual_nonempty in H|].
  destruct s' as [|c' s' _] using rev_ind; [now apply usual_nonempty in H'|].
  destruct s as [|c0 s]; destruct s' as [|c0' s'].
  - apply usual_one in H. apply usual_one in H'. cbn [app]. f_equal. now apply (digit_lower c c' x).
  - exfalso. apply usual_one in H. apply usual_snoc in H'; [|exact Hr|discriminate]. destruct H' as (y & d & _ & _ & _ & _ & E & P). nia.
  - exfalso. apply usual_one in H'. apply usual_snoc in H; [|exact Hr|discriminate]. destruct H as (y & d & _ & _ & _ & _ & E & P). nia.
  - apply usual_snoc in H; [|exact Hr|discriminate]. apply usual_snoc in H'; [|exact Hr|discriminate].
    destruct H as (y & d & Hy & D & Ld & U & E & P). destruct H' as (y' & d' & Hy' & D' & Ld' & U' & E' & P').
    assert (y = y' /\ d = d') as [<- <-].
    { apply (N.div_mod_unique r); [assumption..|]. rewrite (N.mul_comm r y), (N.mul_comm r y'). congruence. }
    rewrite (IH y _ Hy Hy'). f_equal. f_equal. now apply (digit_lower c c' d).
Qed.
Lemma usual_list r xs : 1 <= r -> forall ts ts', Forall2 (usual r) xs ts -> Forall2 (usual r) xs ts' -> ts = ts'.
Proof.
  intros Hr. induction xs as [|x xs IH]; intros ts ts' H H'; inversion H; inversion H'; subst; [reflexivity|].
  f_equal; [eapply usual_unique; eassumption|now apply IH].
Qed.
Lemma usual_dec x : usual 10 x (fmt_dec x).
Proof. apply (fmt_radix_usual 10 x rdx10). Qed.
Lemma usual_dec_iff x t : usual 10 x t <-> t = fmt_dec x.
Proof. split; [intros H; apply (usual_unique 10 ltac:(lia) _ x _ H), usual_dec|intros ->; apply usual_dec]. Qed.

Lemma be_value_inj bs bs' : List.length bs = 4%nat -> List.length bs' = 4%nat -> u8s bs -> u8s bs' -> be_value bs = be_value bs' -> bs = bs'.
Proof.
  intros L L' U U' E. destruct bs as [|a [|b [|c [|d [|]]]]]; try discriminate. destruct bs' as [|a' [|b' [|c' [|d' [|]]]]]; try discriminate.
  unfold u8s in *. repeat match goal with H : Forall _ (_ :: _) |- _ => inversion H; clear H; subst end.
  unfold be_value in E. cbn [fold_left] in E.
  assert (a = a' /\ b = b' /\ c = c' /\ d = d') as (-> & -> & -> & ->) by lia. reflexivity.
Qed.
Lemma spelled_display (R : Rust) (F : family) (a : addr F) : valid a -> spelled a (display a).
Proof.
  intros V. destruct F; cbn [spelled].
  - exact (c02_display a V).
  - pose proof (chunks_has_groups a V) as G. destruct (run_or_full (v6_to_chunks a)) as [H|(z & k & H)]; [apply G| |].
    + destruct (c04_display_full a _ G H) as (ts & T & E). exists (v6_to_chunks a), ts. split; [exact G|]. split; [exact T|].
      left. auto.
    + destruct (c04_display_short a _ z k G H) as (ts & T & E). exists (v6_to_chunks a), ts. split; [exact G|]. split; [exact T|].
      right. exists z, k. auto.
Qed.
Lemma zero_group gs z k : zero_run gs z k -> ~ Forall (fun g => g <> 0) gs.
Proof.
  intros (Hk & Hz & H) Hf. specialize (H z ltac:(lia)). apply nth_error_In in H. rewrite Forall_forall in Hf. now apply (Hf 0).
Qed.
Lemma spelled_once (F : family) (a : addr F) t t' : spelled a t -> spelled a t' -> t = t'.
Proof.
  destruct F; cbn [spelled].
  - intros (bs & ts & L & U & E & T & ->) (bs' & ts' & L' & U' & E' & T' & ->).
    assert (bs' = bs) as -> by (apply be_value_inj; congruence). f_equal. now apply (usual_list 10 bs ltac:(lia)).
  - intros (gs & ts & G & T & H) (gs' & ts' & G' & T' & H'). pose proof (has_groups_unique a gs' gs G' G) as ->.
    pose proof (usual_list 16 gs ltac:(lia) ts' ts T' T) as ->.
    destruct H as [(Hf & ->)|(z & k & Hr & ->)], H' as [(Hf' & ->)|(z' & k' & Hr' & ->)].
    + reflexivity.
    + exfalso. apply (zero_group gs z' k'); [apply Hr'|exact Hf].
    + exfalso. apply (zero_group gs z k); [apply Hr|exact Hf'].
    + destruct (run_unique gs z k z' k' Hr Hr') as [-> ->]. reflexivity.
Qed.
Lemma c88_spelled : forall (R : Rust) (F : family) (a : addr F) (t : str),
  valid a -> (display a = t <-> spelled a t).
Proof. intros R F a t V. split; [intros <-; now apply spelled_display|intros H; exact (spelled_once F a _ _ (spelled_display R F a V) H)]. Qed.

Lemma c88_net_spelled : forall (R : Rust) (F : family) (n : net F) (t : str),
  wf_net n -> (net_display n = t <-> net_spelled n t).
Proof.
  intros R F n t W. destruct (c30_display R F n W) as [D1 D2]. unfold net_spelled, spec_text in *. cbn [app] in *. split.
  - intros <-. destruct (cidr_prefix n) as [p|].
    + destruct (D1 p eq_refl) as (P & U & ->). exists (display (base_addr n)), P. split; [apply spelled_display, W|]. auto.
    + rewrite (D2 eq_refl). exists (display (base_addr n)), (display (subnet_mask n)). split; [apply spelled_display, W|]. split; [reflexivity|].
      apply spelled_display, W.
  - intros (b & m & Hb & -> & Hm). rewrite (spelled_once F _ b _ Hb (spelled_display R F _ (wf_base n W))).
    destruct (cidr_prefix n) as [p|].
    + destruct (D1 p eq_refl) as (P & U & ->). now rewrite (usual_unique 10 ltac:(lia) m p P Hm U).
    + rewrite (D2 eq_refl). now rewrite (spelled_once F _ m _ Hm (spelled_display R F _ (wf_mask n W))).
Qed.

(** ** Descriptions *)
Lemma page_report (R : Rust) (F : family) (text : addr F -> str) (num : N -> str) n a wild hosts bc k class :
  wf_net n -> (forall x, a = Some x -> valid x) ->
  (forall x, valid x -> spelled x (text x)) -> (forall x, usual 10 x (num x)) ->
  valid wild -> value wild = 2 ^ width F - 1 - value (subnet_mask n) ->
  host_range n hosts -> broadcast_of n bc -> page text num n a wild hosts bc k class = report n a hosts bc k class.
Proof.
  intros W Va Ht Hn Vw Ew (k1 & _ & Hh) (k2 & _ & Hb).
  assert (Nm : forall x, num x = fmt_dec x) by (intros x; apply usual_dec_iff, Hn).
  assert (Tx : forall x, valid x -> text x = display x) by (intros x V; exact (spelled_once F x _ _ (Ht x V) (spelled_display R F x V))).
  destruct (negate_value R F (subnet_mask n) (wf_mask n W)) as [Vm Em].
  assert (wild = bitwise_negate (subnet_mask n)) as -> by (apply (value_inj (R := R)); [assumption..|congruence]).
  unfold page, report, bit_row, plain_row, masked_row, row, heading, headings.
  rewrite (Tx _ Vm), (Tx _ (wf_mask n W)), (Tx _ (wf_base n W)), !Nm.
  assert (E1 : forall (f : str -> list mark) u (p : str), f (u ++ match cidr_prefix n with Some q => p ++ num q | None => [] end) =
    f (match cidr_prefix n with Some q => u ++ p ++ fmt_dec q | None => u end)).
  { intros f u p. destruct (cidr_prefix n) as [q|]; [now rewrite Nm|now rewrite app_nil_r]. }
  f_equal; [destruct a as [a|]; [|reflexivity]|f_equal; [|f_equal; [|f_equal]]].
  - rewrite (Tx a (Va a eq_refl)). destruct (cidr_prefix n) as [q|]; [now rewrite Nm|now rewrite app_nil_r].
  - destruct (cidr_prefix n) as [q|]; [now rewrite Nm|now rewrite app_nil_r].
  - destruct hosts as [[x y]|]; [|reflexivity]. destruct Hh as (_ & l & h & _ & _ & Vx & _ & _ & Vy & _).
    now rewrite (Tx x Vx), (Tx y Vy).
  - destruct bc as [b|]; [|reflexivity]. destruct Hb as (_ & Vb & _). now rewrite (Tx b Vb).
Qed.
Lemma depicted_described (R : Rust) (F : family) (n : net F) a ms : wf_net n -> (forall x, a = Some x -> valid x) ->
  depicted n a ms <-> described n a ms.
Proof.
  intros W Va. split.
  - intros (text & num & wild & hosts & bc & k & class & Ht & Hn & Vw & Ew & Hh & Hb & Hk & Hc & ->).
    exists hosts, bc, k, class. do 4 (split; [assumption|]). now apply page_report.
  - intros (hosts & bc & k & class & Hh & Hb & Hk & Hc & ->). destruct (negate_value R F (subnet_mask n) (wf_mask n W)) as [Vm Em].
    exists display, fmt_dec, (bitwise_negate (subnet_mask n)), hosts, bc, k, class.
    assert (Ht : forall x : addr F, valid x -> spelled x (display x)) by (intros x; apply spelled_display).
    do 8 (split; [first [assumption|exact usual_dec]|]). symmetry. now apply (page_report R); try exact usual_dec.
Qed.
Lemma depicted_list (R : Rust) (F : family) (l : list (net F)) mss : Forall wf_net l ->
  Forall2 (fun e ms => depicted e None ms) l mss <-> Forall2 (fun e ms => described e None ms) l mss.
Proof.
  intros W. rewrite Forall_forall in W. split; intros H; revert W; induction H as [|e ms l mss He H IH]; intros W; constructor;
    try (apply IH; intros; apply W; now right); apply (depicted_described R); try assumption; try discriminate; apply W; now left.
Qed.
Lemma paint_inj m m' : paint true m = paint true m' -> m = m'.
Proof. destruct m, m'; cbn [paint]; congruence. Qed.
Lemma paint_list_inj ms : forall ms', map (paint true) ms = map (paint true) ms' -> ms = ms'.
Proof. induction ms as [|m ms IH]; intros [|m' ms']; cbn [map]; try discriminate; [reflexivity|]. intros H. f_equal; [apply paint_inj|apply IH]; congruence. Qed.
Lemma c88_depicted : forall (R : Rust) (F : family) (n : net F) (a : option (addr F)) (ms : list mark),
  wf_net n -> (forall x, a = Some x -> valid x) ->
  ((forall T : Terminal, show_of F n a = (map (paint colors_enabled) ms, Ret tt)) <-> depicted n a ms).
Proof.
  intros R F n a ms W Va. destruct (described_exists R F n a W Va) as (ms0 & D & E). rewrite (depicted_described R F n a ms W Va). split.
  - intros H. specialize (H colourful). specialize (E colourful). rewrite H in E. unfold marks, gives in E.
    apply (f_equal fst) in E. cbn [fst] in E. apply paint_list_inj in E. now subst.
  - intros H T. rewrite (c67_described_once R F n a ms ms0 W H D). apply E.
Qed.

(** ** Ranges *)
Lemma base_follows {F} (l : list (net F)) (R : Rust) : Forall (fun n => exists p, is_cidr n p) l ->
  StronglySorted (fun n n' : net F => forall x y, valid x -> valid y -> member n x -> member n' y -> value x < value y) l ->
  StronglySorted (fun n n' : net F => value (base_addr n) < value (base_addr n')) l.
Proof.
  intros Hc. rewrite Forall_forall in Hc. apply StronglySorted_impl. intros n n' Hn Hn' H. apply H; try apply member_base.
  - destruct (Hc n Hn) as (p & Hp). apply wf_base, Hp.
  - destruct (Hc n' Hn') as (p & Hp). apply wf_base, Hp.
Qed.
Lemma base_sorted_same {F} (l l' : list (net F)) :
  StronglySorted (fun n n' : net F => value (base_addr n) < value (base_addr n')) l ->
  StronglySorted (fun n n' : net F => value (base_addr n) < value (base_addr n')) l' ->
  (forall n, In n l <-> In n l') -> l = l'.
Proof.
  intros S S' H. apply (strictly_sorted_ext (fun n n' : net F => value (base_addr n) < value (base_addr n'))); [intros; lia|intros; lia|assumption..].
Qed.
Lemma c88_ranged : forall (R : Rust) (F : family) (a b : addr F) (r : list (net F)),
  valid a -> valid b -> N.max (value a) (value b) <> top F ->
  (range_to_subnets a b = Ret r <-> ranged F (N.min (value a) (value b)) (N.max (value a) (value b)) r).
Proof.
  intros R F a b r Va Vb Ht.
  assert (Hi : N.max (value a) (value b) + 1 < 2 ^ width F).
  { unfold top in Ht. pose proof (value_lt a Va). pose proof (value_lt b Vb). lia. }
  destruct (c35_covers_exactly R F a b Va Vb Hi) as (l & E & Hc & Hm & S). apply (base_follows l R Hc) in S.
  assert (Hf : fills F (N.min (value a) (value b)) (N.max (value a) (value b)) l) by now split.
  rewrite E. split.
  - intros [= <-]. split; [exact Hf|]. split; [|exact S]. intros r' [Hc' Hm']. now apply (c36_shortest R F a b l r').
  - intros ([Hc' Hm'] & Hs & S'). f_equal. apply base_sorted_same; [assumption..|].
    pose proof (c36_unique R F a b l r Va Vb E Hc' Hm' (Hs l Hf)) as P.
    intros n. split; apply Permutation_in; [exact P|now apply Permutation_sym].
Qed.

(** ** Resizing *)
Lemma own_position (R : Rust) {F} (n : net F) : wf_net n ->
  position (subnet_mask n) (base_addr n) mod 2 ^ host_bits (subnet_mask n) = 0.
Proof.
  intros W. pose proof (proj1 (wf_okN n) W) as O.
  rewrite (position_rk _ _ (wf_mask n W) (wf_base n W)), (rk_base n O), (host_bits_hf _ (wf_mask n W)). unfold size.
  rewrite ?N.mod_mul; [reflexivity|]. pose proof (pow2_pos (N.of_nat (hf (subnet_mask n)))). lia.
Qed.
Lemma resized_resize (R : Rust) (F : family) (n : net F) (m : addr F) : wf_net n -> valid m ->
  exists r o, resize_network n m = Ret (r, o) /\ resized n m r o.
Proof.
  intros W Vm. destruct (N.lt_trichotomy (host_bits (subnet_mask n)) (host_bits m)) as [H|[H|H]].
  - destruct (c52_supernet R F n m W Vm H) as (x & E & Wx & Ex & Px). exists [x], Lt. split; [exact E|]. split; [symmetry; now apply N.compare_lt_iff|].
    split; [constructor; [now split|constructor]|]. exists x. now split.
  - destruct (c54_same_size R F n m W Vm (eq_sym H)) as (x & E & Wx & Ex & Px). exists [x], Eq. split; [exact E|]. split; [symmetry; now apply N.compare_eq_iff|].
    split; [constructor; [now split|constructor]|]. exists x. split; [reflexivity|].
    rewrite Px, <- H, (own_position R n W). now rewrite N.sub_0_r.
  - destruct (c53_subnets R F n m W Vm H) as (l & E & _ & Hl & Hu & Hs). exists l, Gt. split; [exact E|]. split; [symmetry; now apply N.compare_gt_iff|].
    split; [exact Hl|]. split; [exact Hu|]. revert Hs. apply StronglySorted_impl. intros x y _ _ Hxy. apply Hxy.
Qed.
Lemma resized_once (R : Rust) {F : family} (n : net F) (m : addr F) r o r' o' : wf_net n -> valid m ->
  resized n m r o -> resized n m r' o' -> r = r' /\ o = o'.
Proof.
  intros W Vm (Eo & Hr & H) (Eo' & Hr' & H'). rewrite <- Eo' in Eo. subst o'. split; [|reflexivity].
  rewrite Forall_forall in Hr, Hr'.
  assert (One : forall e e', r = [e] -> r' = [e'] -> position m (base_addr e) = position m (base_addr e') -> r = r').
  { intros e e' -> -> P. f_equal. destruct (Hr e (or_introl eq_refl)), (Hr' e' (or_introl eq_refl)). now apply (same_place R m). }
  destruct o; [destruct H as (e & E & P), H' as (e' & E' & P'); apply (One e e'); congruence..|].
  destruct H as [Hu Hs], H' as [Hu' Hs']. apply base_sorted_same; [assumption..|].
  intros e. split; intros He.
  - destruct (Hr e He) as [We Ee]. pose proof (wf_base e We) as V.
    destruct (proj2 (Hu' (base_addr e) V)) as (e' & He' & M').
    { apply (Hu (base_addr e) V). exists e. split; [exact He|apply member_base]. }
    destruct (Hr' e' He') as [We' Ee']. rewrite <- (same_mask_share R e e'); [assumption..|congruence|assumption].
  - destruct (Hr' e He) as [We Ee]. pose proof (wf_base e We) as V.
    destruct (proj2 (Hu (base_addr e) V)) as (e' & He' & M').
    { apply (Hu' (base_addr e) V). exists e. split; [exact He|apply member_base]. }
    destruct (Hr e' He') as [We' Ee']. rewrite <- (same_mask_share R e e'); [assumption..|congruence|assumption].
Qed.
Lemma c88_resized : forall (R : Rust) (F : family) (n : net F) (m : addr F) (r : list (net F)) (o : comparison),
  wf_net n -> valid m -> (resize_network n m = Ret (r, o) <-> resized n m r o).
Proof.
  intros R F n m r o W Vm. destruct (resized_resize R F n m W Vm) as (r0 & o0 & E & D). rewrite E. split.
  - intros H. assert (r0 = r) as <- by congruence. assert (o0 = o) as <- by congruence. exact D.
  - intros D'. destruct (resized_once R n m r o r0 o0 W Vm D' D) as [-> ->]. reflexivity.
Qed.

(** ** Splitting *)
Lemma sort_exists {X} (f : X -> N) (l : list X) : exists l', Permutation l l' /\ StronglySorted (fun x y => f x <= f y) l'.
Proof.
  induction l as [|x l (l' & P & S)]; [exists []; split; constructor|].
  assert (exists l2, Permutation (x :: l') l2 /\ StronglySorted (fun x y => f x <= f y) l2) as (l2 & P2 & S2).
  { clear P. induction S as [|y l' S (l2 & P2 & S2) Hf]; [exists [x]; split; [reflexivity|constructor; constructor]|].
    destruct (N.le_gt_cases (f x) (f y)) as [H|H].
    - exists (x :: y :: l'). split; [reflexivity|]. constructor; [now constructor|]. constructor; [exact H|].
      eapply Forall_impl; [|exact Hf]. cbn beta. intros; lia.
    - exists (y :: l2). split; [rewrite perm_swap; now rewrite P2|]. constructor; [exact S2|].
      apply Forall_forall. intros z Hz. apply (Permutation_in _ (Permutation_sym P2)) in Hz. destruct Hz as [<-|Hz]; [lia|].
      rewrite Forall_forall in Hf. now apply Hf. }
  exists l2. split; [now rewrite P|exact S2].
Qed.
Lemma share_base {F} (n n' : net F) : wf_net n -> base_addr n = base_addr n' -> share n n'.
Proof. intros W E. exists (base_addr n). split; [apply wf_base, W|]. split; [apply member_base|rewrite E; apply member_base]. Qed.
(** Networks in order that fill an interval are a run. *)
Lemma fills_run (R : Rust) {F} (l : list (net F)) : forall x y, y <= 2 ^ width F -> Forall (fun n => exists p, is_cidr n p) l ->
  StronglySorted (fun n n' : net F => value (base_addr n) < value (base_addr n')) l -> disjoint_nets l ->
  (forall a : addr F, valid a -> ((exists m, In m l /\ member m a) <-> x <= value a < y)) -> run x l.
Proof.
  induction l as [|n l IH]; intros x y Hy Hc S D H; cbn [run]; [exact Logic.I|].
  inversion Hc as [|? ? (p & Hp) Hc']; subst. inversion S as [|? ? S' Hf]; subst. inversion D as [|? ? Hd D']; subst.
  rewrite Forall_forall in Hf, Hd, Hc'. pose proof (wf_base n (proj1 Hp)) as Vb.
  assert (Bx : x <= value (base_addr n) < y) by (apply H; [exact Vb|]; exists n; split; [now left|apply member_base]).
  assert (Eb : value (base_addr n) = x).
  { destruct (value_surj (R := R) (F := F) x ltac:(lia)) as (a & Va & Ea).
    destruct (proj2 (H a Va)) as (m & [<-|Hm] & Ma); [lia| |].
    - apply (member_interval n p a Hp Va) in Ma. lia.
    - destruct (Hc' m Hm) as (q & Hq). apply (member_interval m q a Hq Va) in Ma. specialize (Hf m Hm). cbn beta in Hf. lia. }
  exists p. split; [exact Hp|]. split; [exact Eb|]. apply (IH _ y Hy); [now apply Forall_forall|assumption..|].
  intros a Va. specialize (H a Va). pose proof (member_interval n p a Hp Va) as Mn. rewrite Eb in Mn. split.
  - intros (m & Hm & Ma). assert (x <= value a < y) by (apply H; exists m; split; [now right|exact Ma]).
    assert (Nm : ~ member n a) by (intros C; apply (Hd m Hm); exists a; auto). rewrite Mn in Nm. lia.
  - intros B. destruct (proj2 H) as (m & [<-|Hm] & Ma); [pose proof (pow2_pos (width F - p)); lia| |eauto]. apply Mn in Ma. lia.
Qed.
Lemma split_combine {X Y} (l : list (X * Y)) : l = combine (map fst l) (map snd l).
Proof. induction l as [|[x y] l IH]; cbn [map combine fst snd]; [reflexivity|]. congruence. Qed.
Lemma Forall2_combine {X Y} (P : X -> Y -> Prop) xs ys : Forall2 P xs ys -> Forall (fun p => P (fst p) (snd p)) (combine xs ys).
Proof. induction 1; cbn [combine]; constructor; assumption. Qed.
Lemma combine_fst {X Y} (xs : list X) : forall ys : list Y, List.length xs = List.length ys -> map fst (combine xs ys) = xs.
Proof. induction xs as [|x xs IH]; intros [|y ys] E; try discriminate; cbn [combine map fst]; [reflexivity|]. f_equal. apply IH. cbn in E. lia. Qed.
Lemma combine_snd {X Y} (xs : list X) : forall ys : list Y, List.length xs = List.length ys -> map snd (combine xs ys) = ys.
Proof. induction xs as [|x xs IH]; intros [|y ys] E; try discriminate; cbn [combine map snd]; [reflexivity|]. f_equal. apply IH. cbn in E. lia. Qed.
Lemma nth_of_combine {X Y} (xs : list X) : forall (ys : list Y) p, In p (combine xs ys) -> exists i, nth_error xs i = Some (fst p) /\ nth_error ys i = Some (snd p).
Proof.
  induction xs as [|x xs IH]; intros [|y ys] p; cbn [combine In]; try tauto. intros [<-|H]; [exists O; now split|].
  destruct (IH ys p H) as (i & E). exists (S i). exact E.
Qed.

Lemma split_placed (R : Rust) (F : family) (n : net F) cs r : wf_net n -> split_subnet n cs = Ret (Some r) -> placed n cs r.
Proof.
  intros W E. split; [refine (Forall2_imp _ _ _ _ _ (c46_one_per_request R F n cs r W E)); intros c m [Hc Hm]; split; [now apply N.lt_le_incl|exact Hm]|]. destruct (c48_disjoint_run R F n cs r W E) as [D M].
  split; [exact D|]. split; [exact M|]. intros. now apply (c48_larger_first R F n cs r i j c c' m m').
Qed.
Lemma placed_sorted (R : Rust) {F} (n : net F) cs r : run_start n cs + total cs <= 2 ^ width F -> placed n cs r ->
  exists L, Permutation (combine cs r) L /\ StronglySorted (fun c c' => c' <= c)%Z (map fst L) /\ run (run_start n cs) (map snd L).
Proof.
  intros Hy (H2 & D & M & Lf). destruct (sort_exists (fun p => value (base_addr (snd p))) (combine cs r)) as (L & P & S).
  exists L. split; [exact P|]. pose proof (Forall2_len _ _ _ H2) as El.
  assert (Pr : Permutation r (map snd L)) by (rewrite <- (combine_snd cs r El) at 1; now apply Permutation_map).
  assert (Cr : Forall (fun m => exists p, is_cidr m p) r).
  { clear -H2. induction H2 as [|c m cs r (_ & Hm) H2 IH]; constructor; [eexists; exact Hm|exact IH]. }
  assert (CL : Forall (fun m => exists p, is_cidr m p) (map snd L)) by now rewrite <- Pr.
  assert (DL : disjoint_nets (map snd L)) by now apply (disjoint_perm r).
  assert (In' : forall p, In p L -> In p (combine cs r)) by (intros p; apply Permutation_in; now apply Permutation_sym).
  assert (SL : StronglySorted (fun p q => value (base_addr (snd p)) < value (base_addr (snd q)) /\ (fst q <= fst p)%Z) L).
  { clear P Pr M. revert In' DL CL. induction S as [|p L S IH Hf]; intros In' DL CL; constructor.
    - inversion DL; inversion CL; subst. apply IH; try assumption. intros q Hq. apply In'. now right.
    - inversion DL as [|? ? Hd _]; subst. inversion CL as [|? ? (k & Hk) CL']; subst. rewrite Forall_forall in *. intros q Hq. specialize (Hf q Hq). cbn beta in Hf.
      assert (Hlt : value (base_addr (snd p)) < value (base_addr (snd q))).
      { assert (value (base_addr (snd p)) <> value (base_addr (snd q))); [|lia]. intros C.
        destruct (CL' (snd q) (in_map snd _ _ Hq)) as (k' & Hk').
        apply (Hd (snd q) (in_map snd _ _ Hq)). apply share_base; [apply Hk|]. apply (value_inj (R := R)); [apply wf_base, Hk|apply wf_base, Hk'|exact C]. }
      split; [exact Hlt|]. destruct (Z.le_gt_cases (fst q) (fst p)) as [|Hc]; [assumption|exfalso].
      destruct (nth_of_combine cs r p (In' p (or_introl eq_refl))) as (i & Ec & Em).
      destruct (nth_of_combine cs r q (In' q (or_intror Hq))) as (j & Ec' & Em').
      specialize (Lf j i _ _ _ _ Ec' Em' Ec Em Hc). exact (N.lt_asymm _ _ Lf Hlt). }
  split.
  - clear -SL. induction SL as [|p L S IH Hf]; cbn [map]; constructor; [exact IH|]. rewrite Forall_forall in *. intros c Hc.
    apply in_map_iff in Hc. destruct Hc as (q & <- & Hq). apply (Hf q Hq).
  - apply (fills_run R (map snd L) _ (run_start n cs + total cs) Hy CL); [|exact DL|].
    + clear -SL. induction SL as [|p L S IH Hf]; cbn [map]; constructor; [exact IH|]. rewrite Forall_forall in *. intros c Hc.
      apply in_map_iff in Hc. destruct Hc as (q & <- & Hq). apply (Hf q Hq).
    + intros a Va. rewrite <- (M a Va). symmetry. now apply perm_member.
Qed.
Lemma placed_perm (R : Rust) {F} (n : net F) cs r r' : run_start n cs + total cs <= 2 ^ width F -> placed n cs r -> placed n cs r' ->
  Permutation (combine cs r) (combine cs r').
Proof.
  intros Hy Hp Hp'. destruct (placed_sorted R n cs r Hy Hp) as (L & P & S & U). destruct (placed_sorted R n cs r' Hy Hp') as (L' & P' & S' & U').
  destruct Hp as (H2 & _). destruct Hp' as (H2' & _).
  assert (Ec : map fst L = map fst L').
  { apply desc_perm_eq; [assumption..|]. rewrite <- P, <- P'. rewrite !combine_fst by (eapply Forall2_len; eassumption). reflexivity. }
  assert (Pf : forall (r : list (net F)) L, Forall2 (fun c m => piece c <= width F /\ is_cidr m (width F - piece c)) cs r -> Permutation (combine cs r) L ->
    map cidr_prefix (map snd L) = map (fun c => Some (width F - piece c)) (map fst L)).
  { clear. intros r L H P. apply Forall2_combine in H. rewrite P in H. clear P. induction H as [|p L (_ & _ & Hp) H IH]; cbn [map]; [reflexivity|]. now rewrite Hp, IH. }
  assert (En : map snd L = map snd L').
  { apply (run_same _ _ _ U U'). rewrite (Pf r L H2 P), (Pf r' L' H2' P'). now rewrite Ec. }
  rewrite P, P', (split_combine L), (split_combine L'), Ec, En. reflexivity.
Qed.
Lemma placed_once (R : Rust) {F} (n : net F) cs r r' : run_start n cs + total cs <= 2 ^ width F -> NoDup cs -> placed n cs r -> placed n cs r' -> r = r'.
Proof.
  intros Hy Nd Hp Hp'. apply (combine_functional cs); [assumption| | |now apply (placed_perm R n)].
  - symmetry. eapply Forall2_len, Hp.
  - symmetry. eapply Forall2_len, Hp'.
Qed.
Lemma top_pow F : top F + 1 = 2 ^ width F.
Proof. unfold top. pose proof (pow2_pos (width F)). lia. Qed.
Lemma placed_split (R : Rust) (F : family) (n : net F) cs r : wf_net n -> run_start n cs + total cs <= top F -> placed n cs r ->
  exists r', split_subnet n cs = Ret (Some r') /\ placed n cs r' /\ Permutation (combine cs r) (combine cs r').
Proof.
  intros W Hy Hp. pose proof (top_pow F). destruct (split_parts R F n cs W) as [H1 _]. destruct (H1 ltac:(lia)) as (r' & _ & E & _).
  pose proof (split_placed R F n cs r' W E) as Hp'. exists r'. split; [exact E|]. split; [exact Hp'|]. apply (placed_perm R n); [lia|assumption..].
Qed.
Lemma c88_placed : forall (R : Rust) (F : family) (n : net F) (cs : list Z) (r : list (net F)),
  wf_net n -> run_start n cs + total cs <= top F ->
  (split_subnet n cs = Ret (Some r) -> placed n cs r) /\
  (placed n cs r -> exists r', split_subnet n cs = Ret (Some r') /\
     Permutation (combine cs r) (combine cs r') /\ (NoDup cs -> r = r')).
Proof.
  intros R F n cs r W Hy. split.
  - intros E. now apply (split_placed R).
  - intros Hp. destruct (placed_split R F n cs r W Hy Hp) as (r' & E & Hp' & P). exists r'. split; [exact E|]. split; [exact P|].
    intros Nd. pose proof (top_pow F). apply (placed_once R n cs); [lia|assumption..].
Qed.

(** ** Lists of texts *)
Lemma spelled_nets (R : Rust) (F : family) (r : list (net F)) ts : Forall wf_net r ->
  Forall2 net_spelled r ts <-> ts = map net_display r.
Proof.
  intros W. split.
  - intros H. revert W. induction H as [|n t r ts Hn H IH]; intros W; cbn [map]; [reflexivity|]. inversion W as [|? ? Wn W']; subst.
    f_equal; [|now apply IH]. symmetry. now apply (c88_net_spelled R F n t Wn).
  - intros ->. induction W as [|n r Wn W IH]; cbn [map]; constructor; [|exact IH]. now apply (c88_net_spelled R F n _ Wn).
Qed.
Lemma spelled_addrs (R : Rust) (F : family) (l : list (addr F)) ms : Forall valid l ->
  Forall2 (fun x m => exists t, spelled x t /\ m = says t) l ms <-> ms = map (fun x => says (display x)) l.
Proof.
  intros W. split.
  - intros H. revert W. induction H as [|x m l ms (t & Ht & ->) H IH]; intros W; cbn [map]; [reflexivity|]. inversion W as [|? ? Wx W']; subst.
    f_equal; [|now apply IH]. f_equal. exact (spelled_once F x t _ Ht (spelled_display R F x Wx)).
  - intros ->. induction W as [|x l Wx W IH]; cbn [map]; constructor; [|exact IH]. exists (display x). split; [now apply spelled_display|reflexivity].
Qed.
Lemma says_map {X} (f : X -> str) l : map says (map f l) = map (fun x => says (f x)) l.
Proof. apply map_map. Qed.
Lemma combine_map_l {X X' Y} (f : X -> X') (xs : list X) : forall ys : list Y, combine (map f xs) ys = map (fun p => (f (fst p), snd p)) (combine xs ys).
Proof. induction xs as [|x xs IH]; intros [|y ys]; cbn [map combine fst snd]; [reflexivity..|]. now rewrite IH. Qed.
Lemma flat_map_map {X Y W} (f : X -> Y) (g : Y -> list W) l : flat_map g (map f l) = flat_map (fun x => g (f x)) l.
Proof. induction l as [|x l IH]; cbn [map flat_map]; [reflexivity|]. now rewrite IH. Qed.
Lemma usual_decs {X} (f : X -> N) (xs : list X) ts : Forall2 (fun x t => usual 10 (f x) t) xs ts <-> ts = map (fun x => fmt_dec (f x)) xs.
Proof.
  split.
  - induction 1 as [|x t xs ts Hx H IH]; cbn [map]; [reflexivity|]. f_equal; [now apply usual_dec_iff|exact IH].
  - intros ->. induction xs as [|x xs IH]; cbn [map]; constructor; [apply usual_dec|exact IH].
Qed.
Lemma fmt_Z_dec c : (0 <= c)%Z -> fmt_Z c = fmt_dec (Z.to_N c).
Proof. destruct c; [reflexivity..|lia]. Qed.
Lemma split_page_marks first cs mss ms : Forall (fun c => 0 <= c)%Z cs -> (split_page first cs mss ms <-> ms = split_marks first cs mss).
Proof.
  intros Hc. assert (E : split_marks first cs mss = says (lit "Subnet to split:") :: first ++ break ::
      flat_map (fun tm => says (lit "Subnet for " ++ fst tm ++ lit " hosts:") :: snd tm ++ [break]) (combine (map (fun c => fmt_dec (Z.to_N c)) cs) mss)).
  { unfold split_marks. rewrite combine_map_l, flat_map_map. cbn [fst snd]. apply (f_equal (fun l => says (lit "Subnet to split:") :: first ++ break :: l)). revert mss. induction Hc as [|c cs Hc0 Hc IH]; intros [|m mss]; cbn [combine flat_map fst snd]; [reflexivity..|].
    now rewrite (fmt_Z_dec c Hc0), IH. }
  unfold split_page. split.
  - intros (ts & Ht & ->). apply (usual_decs Z.to_N) in Ht. subst ts. now rewrite E.
  - intros ->. exists (map (fun c => fmt_dec (Z.to_N c)) cs). split; [now apply (usual_decs Z.to_N)|exact E].
Qed.
Lemma resize_page_marks first o mss ms : resize_page first o mss ms <-> ms = resize_marks first o mss.
Proof.
  assert (E : resize_marks first o mss = says (lit "Original network:") :: first ++ break ::
      flat_map (fun tm =>
          says (match o with
                | Lt => lit "Supernet:"
                | Eq => lit "Same-sized net:"
                | Gt => lit "Subnet " ++ fst tm ++ lit ":"
                end) :: snd tm ++ [break]) (combine (map (fun k => fmt_dec (N.of_nat k)) (seq 1 (List.length mss))) mss)).
  { unfold resize_marks. rewrite combine_map_l, flat_map_map. reflexivity. }
  unfold resize_page. split.
  - intros (ts & Ht & ->). apply (usual_decs N.of_nat) in Ht. subst ts. now rewrite E.
  - intros ->. eexists. split; [apply (usual_decs N.of_nat); reflexivity|exact E].
Qed.
Lemma sensible_iff (R : Rust) s : SpecWhole.sensible s <-> ~ nonsense s.
Proof.
  split.
  - intros (F & a & n & M) N. now apply N in M.
  - intros N. destruct (parse_cases R s) as [(F & a & n & _ & M)|(e & _ & C)]; [exists F, a, n; exact M|contradiction].
Qed.
Lemma no_command_hd ss : no_command ss <-> ss <> [] /\ forall w, hd_error ss = Some w -> ~ In w command_words.
Proof.
  split.
  - intros (w & rest & -> & H). split; [discriminate|]. now intros x [= <-].
  - intros (Hne & H). destruct ss as [|w rest]; [congruence|]. exists w, rest. split; [reflexivity|]. now apply H.
Qed.
Lemma counts_pre pre cs : (pre = [] \/ counts_text pre cs) -> exists cs', Forall2 count_text pre cs' /\ Forall (fun c => 0 <= c)%Z cs'.
Proof. intros [->|(_ & H & H')]; [exists []; split; constructor|exists cs; now split]. Qed.
Lemma pre_counts pre cs : Forall2 count_text pre cs -> Forall (fun c => 0 <= c)%Z cs -> pre = [] \/ counts_text pre cs.
Proof. intros H H'. destruct pre as [|t pre]; [now left|]. right. split; [discriminate|]. now split. Qed.
Lemma listed_valid {F : family} (n : net F) l : listed n l -> Forall valid l.
Proof. intros [H _]. apply Forall_forall. intros x Hx. apply H, Hx. Qed.
Lemma listed_once {F : family} (n : net F) l l' : listed n l -> listed n l' -> l = l'.
Proof.
  intros [H S] [H' S']. apply (strictly_sorted_ext (fun x y : addr F => value x < value y)); [intros; lia|intros; lia|assumption..|].
  intros x. now rewrite H, H'.
Qed.
Lemma wf_cidrs {F} (r : list (net F)) : Forall (fun n => exists p, is_cidr n p) r -> Forall wf_net r.
Proof. apply Forall_impl. intros n (p & H & _). exact H. Qed.
Lemma wf_placed {F} (n : net F) cs r : placed n cs r -> Forall wf_net r.
Proof. intros (H & _). induction H as [|c m cs r (_ & Hm & _) H IH]; constructor; assumption. Qed.
Lemma wf_resized {F} (n : net F) m r o : resized n m r o -> Forall wf_net r.
Proof. intros (_ & H & _). eapply Forall_impl; [|exact H]. intros e He. apply He. Qed.
Lemma specs_wf (R : Rust) (F : family) ss (l : list (net F)) : Forall2 (fun s n => exists a, means F s a n) ss l -> Forall wf_net l.
Proof. induction 1 as [|s n ss l (a & M) H IH]; constructor; [apply (means_wf R F s a n M)|exact IH]. Qed.
Lemma specs_pairs (F : family) ss (l : list (net F)) : Forall2 (fun s n => exists a, means F s a n) ss l ->
  exists l' : list (addr F * net F), map snd l' = l /\ Forall2 (fun s an => means F s (fst an) (snd an)) ss l'.
Proof.
  induction 1 as [|s n ss l (a & M) H (l' & E & IH)]; [exists []; split; constructor|].
  exists ((a, n) :: l'). split; [cbn [map snd]; now rewrite E|now constructor].
Qed.

(** ** What is to be done is done *)
Definition done (R : Rust) (args : list str) (ms : list mark) (z : Z) : Prop :=
  exists ms', does args ms' z /\ Permutation ms' ms /\ (settled args -> ms' = ms).
Lemma done_by (R : Rust) args ms z : does args ms z -> done R args ms z.
Proof. intros H. exists ms. auto. Qed.

Lemma done_show (R : Rust) prog ss mss : no_command ss ->
  Forall2 (fun s ms => exists F (a : addr F) n, means F s a n /\ depicted n (Some a) ms) ss mss -> does (prog :: ss) (spaced mss) 0%Z.
Proof.
  intros Hc H. apply no_command_hd in Hc. destruct Hc as [Hne Hc].
  destruct (c62_show R prog ss Hne Hc) as (mss' & D & X).
  { clear -H. intros s Hs N. induction H as [|t ms ss mss (F & a & n & M & _) H IH]; [contradiction|]. destruct Hs as [->|Hs]; [now apply N in M|now apply IH]. }
  replace mss with mss'; [exact X|]. clear -H D. revert mss' D.
  induction H as [|s ms ss mss (F & a & n & M & Hd) H IH]; intros mss' D; inversion D as [|? ms' ? mss0 (G & b & m & M' & Hd') D0]; subst; [reflexivity|].
  f_equal; [|now apply IH]. revert Hd'.
  apply (means_once R F G s a n b m (fun G b m => described m (Some b) ms' -> ms' = ms) M M').
  intros Hd'. destruct (means_wf R F s a n M) as [Va Wn]. apply (depicted_described R) in Hd; [|exact Wn|now intros x [= <-]].
  now apply (c67_described_once R F n (Some a)).
Qed.
Lemma done_enumerate (R : Rust) prog w ss mss z : In w enumerate_words -> ss <> [] ->
    Forall2 (fun s ms =>
      (exists F (a : addr F) n l, means F s a n /\ listed n l /\
         Forall2 (fun x m => exists t, spelled x t /\ m = says t) l ms) \/
      (exists e, netspec_refused usize_bits s e /\ ms = [Problem (MsgNetwork s e)])) ss mss ->
    (Forall SpecWhole.sensible ss /\ z = 0%Z \/ ~ Forall SpecWhole.sensible ss /\ z = 1%Z) -> does (prog :: w :: ss) (List.concat mss) z.
Proof.
  intros Hw Hne H Hz. destruct (c62_enumerate R prog w ss Hw Hne) as (mss' & z' & H' & Hz' & D).
  assert (z' = z) as ->.
  { destruct Hz as [[Hs ->]|[Hs ->]], Hz' as [[-> Hz']|[-> (t & Ht & Nt)]]; try reflexivity.
    - rewrite Forall_forall in Hs. apply Hs in Ht. now apply (sensible_iff R) in Ht.
    - exfalso. apply Hs. apply Forall_forall. intros s Hs'. apply (sensible_iff R). now apply Hz'. }
  replace mss with mss'; [exact D|]. clear -H H'. revert mss' H'.
  induction H as [|t ms ts mss Ht H IH]; intros mss' H'; inversion H' as [|? ms' ? mss0 Ht' H0]; subst; [reflexivity|].
  f_equal; [|now apply IH]. clear -Ht Ht'.
  destruct Ht as [(F & a & n & l & M & Hl & Hs)|(e & E & ->)], Ht' as [(G & b & m & l' & M' & Hi' & Hs' & ->)|(N' & e' & E' & ->)].
  - apply (spelled_addrs R) in Hs; [|now apply (listed_valid n)]. subst ms. pose proof M' as M2. revert l' M' Hi' Hs'.
    apply (means_once R F G t a n b m (fun G b m => forall l', means G t b m -> (forall x, In x l' <-> valid x /\ member m x) ->
      StronglySorted (fun x y : addr G => value x < value y) l' ->
      map (fun x => says (@display (addr G) (@addr_ops R G) x)) l' = map (fun x => says (@display (addr F) (@addr_ops R F) x)) l) M M2).
    intros l' _ Hi' Hs'. assert (l' = l) as -> by (apply (listed_once n); [now split|exact Hl]). reflexivity.
  - now apply N' in M.
  - apply refused_nonsense in E. now apply E in M'.
  - apply (c87_netspec R) in E'. destruct (proj1 (proj1 (c87_nonsense R t)) (refused_nonsense t e E)) as (e0 & _ & U). now rewrite <- (U e E), <- (U e' E').
Qed.
Lemma done_minimize (R : Rust) F prog w ss (l r : list (net F)) ts : In w minimize_words -> ss <> [] ->
    Forall2 (fun s (n : net F) => exists a, means F s a n) ss l -> minimized l r -> Forall2 net_spelled r ts ->
    does (prog :: w :: ss) (map says ts) 0%Z.
Proof.
  intros Hw Hne H Hm Ht. pose proof (specs_wf R F ss l H) as Wl. destruct (specs_pairs F ss l H) as (l' & E & H').
  destruct (c62_minimize R F prog w ss l' Hw Hne H') as (r0 & E0 & D). rewrite E in E0.
  apply (c78_exact R F l r Wl) in Hm. assert (r0 = r) as -> by congruence.
  destruct (c40_returns R F l Wl) as (r1 & E1 & Wr). assert (r1 = r) as -> by congruence.
  apply (spelled_nets R) in Ht; [|exact Wr]. subst ts. rewrite says_map. exact D.
Qed.
Lemma done_derange (R : Rust) F prog w s t (a b : addr F) r ts :
    In w derange_words -> address_text F s a -> address_text F t b -> N.max (value a) (value b) <> top F ->
    ranged F (N.min (value a) (value b)) (N.max (value a) (value b)) r -> Forall2 net_spelled r ts ->
    does [prog; w; s; t] (map says ts) 0%Z.
Proof.
  intros Hw Ha Hb Hn Hr Ht. destruct (c62_derange R F prog w s t a b Hw Ha Hb Hn) as (r0 & E & D).
  assert (Wr : Forall wf_net r) by (apply wf_cidrs, Hr).
  apply (c88_ranged R F a b r (addr_valid F s a Ha) (addr_valid F t b Hb) Hn) in Hr. assert (r0 = r) as -> by congruence.
  apply (spelled_nets R) in Ht; [|exact Wr]. subst ts. rewrite says_map. exact D.
Qed.
Lemma mask_valid F t (m : addr F) : mask_text F t m -> valid m.
Proof. intros [H|(p & _ & _ & H & _)]; [eapply addr_valid; exact H|exact H]. Qed.
Lemma done_resize (R : Rust) F prog w s t (a : addr F) n m r o first mss ms :
    In w resize_words -> means F s a n -> mask_text F t m -> resized n m r o ->
    depicted n None first -> Forall2 (fun e ms => depicted e None ms) r mss -> resize_page first o mss ms ->
    does [prog; w; s; t] ms 0%Z.
Proof.
  intros Hw M Hm Hr Df Dm P. destruct (means_wf R F s a n M) as [_ Wn]. pose proof (mask_valid F t m Hm) as Vm.
  destruct (c62_resize R F prog w s t a n m Hw M Hm) as (r0 & o0 & first0 & mss0 & E & Df0 & Dm0 & X).
  pose proof (wf_resized n m r o Hr) as Wr. apply (c88_resized R F n m r o Wn Vm) in Hr.
  assert (r0 = r) as -> by congruence. assert (o0 = o) as -> by congruence.
  apply (depicted_described R) in Df; [|exact Wn|discriminate]. apply (depicted_list R) in Dm; [|exact Wr].
  apply resize_page_marks in P. subst ms. rewrite (c67_described_once R F n None first first0 Wn Df Df0), (described_list_same R R F r mss0 mss Wr Dm0 Dm). exact X.
Qed.
Lemma settled_counts prog w s ss cs : settled (prog :: w :: s :: ss) -> In w split_words -> counts_text ss cs -> NoDup cs.
Proof. intros H Hw Hc. exact (H prog w s ss cs eq_refl Hw Hc). Qed.
Lemma flat_map_perm {X Y} (f : X -> list Y) l l' : Permutation l l' -> Permutation (flat_map f l) (flat_map f l').
Proof. apply Permutation_flat_map. Qed.
Lemma described_combine (R : Rust) F (cs : list Z) (r : list (net F)) mss : List.length cs = List.length r ->
  Forall2 (fun e ms => described e None ms) r mss -> Forall2 (fun p q => fst p = fst q /\ described (snd p) None (snd q)) (combine cs r) (combine cs mss).
Proof.
  intros L H. revert cs L. induction H as [|e ms r mss He H IH]; intros [|c cs] L; try discriminate; cbn [combine]; constructor; [now split|].
  apply IH. cbn in L. lia.
Qed.
Lemma described_perm (R : Rust) F (cs : list Z) (r r' : list (net F)) mss mss' : Forall wf_net r ->
  List.length cs = List.length r -> List.length cs = List.length r' ->
  Forall2 (fun e ms => described e None ms) r mss -> Forall2 (fun e ms => described e None ms) r' mss' ->
  Permutation (combine cs r) (combine cs r') -> Permutation (combine cs mss) (combine cs mss').
Proof.
  intros W L L' H H' P. apply (described_combine R F cs r mss L) in H. apply (described_combine R F cs r' mss' L') in H'.
  destruct (Permutation_Forall2 P H) as (q & Pq & Hq). rewrite Pq. replace q with (combine cs mss'); [reflexivity|].
  assert (Wc : Forall (fun p => wf_net (snd p)) (combine cs r')).
  { rewrite <- P. apply Forall_forall. intros p Hp. rewrite Forall_forall in W. apply W. destruct p as [c e]. now apply in_combine_r in Hp. }
  clear -H' Hq Wc. revert H' Hq Wc. generalize (combine cs mss'). generalize (combine cs r'). intros l. revert q.
  induction l as [|p l IH]; intros q q' H' Hq Wc; inversion H' as [|? x ? ? [E1 D1] G1]; subst; inversion Hq as [|? y ? ? [E2 D2] G2]; subst; [reflexivity|].
  inversion Wc as [|? ? Wp Wc']; subst. f_equal; [|now apply IH]. destruct x, y. cbn [fst snd] in *. f_equal; [congruence|].
  now apply (c67_described_once R F (snd p) None).
Qed.
Lemma split_marks_perm first cs mss mss' : Permutation (combine cs mss) (combine cs mss') ->
  Permutation (split_marks first cs mss) (split_marks first cs mss').
Proof.
  intros P. unfold split_marks. constructor. apply Permutation_app_head. constructor.
  apply (flat_map_perm (fun cm => says (lit "Subnet for " ++ fmt_Z (fst cm) ++ lit " hosts:") :: snd cm ++ [break])). exact P.
Qed.
Lemma counts_nonneg ss cs : counts_text ss cs -> Forall (fun c => 0 <= c)%Z cs /\ cs <> [].
Proof. intros (Hne & H & Hp). split; [exact Hp|]. destruct H; congruence. Qed.
Lemma done_split_found (R : Rust) F prog w s ss (a : addr F) n cs r first mss ms :
    In w split_words -> means F s a n -> counts_text ss cs -> placed n cs r -> run_start n cs + total cs <= top F ->
    depicted n None first -> Forall2 (fun e ms => depicted e None ms) r mss -> split_page first cs mss ms ->
    forall h, highest n h -> exists ms', Permutation ms' ms /\ (settled (prog :: w :: s :: ss) -> ms' = ms) /\
      (~ split_inside n cs -> does (prog :: w :: s :: ss) (ms' ++ [says (lit "Network is too small")]) 0%Z) /\
      (split_inside n cs -> N.max (run_start n cs + total cs) (value h) <> top F -> exists b us, valid b /\ value b = run_start n cs + total cs /\
          range_to_subnets b h = Ret us /\
          does (prog :: w :: s :: ss) (ms' ++ says (lit "Unused networks:") :: map (fun u => says (net_display u)) us) 0%Z).
Proof.
  intros Hw M Hc Hp Hy Df Dm P h Hh. destruct (means_wf R F s a n M) as [_ Wn]. pose proof (wf_placed n cs r Hp) as Wr.
  destruct (c62_split R F prog w s ss a n cs h Hw M Hc Hh) as (first0 & Df0 & _ & X). destruct (X Hy) as (r0 & mss0 & E0 & Dm0 & X1 & X2).
  pose proof (split_placed R F n cs r0 Wn E0) as Hp0. pose proof (wf_placed n cs r0 Hp0) as Wr0.
  apply (depicted_described R) in Df; [|exact Wn|discriminate]. apply (depicted_list R) in Dm; [|exact Wr].
  pose proof (c67_described_once R F n None first first0 Wn Df Df0) as <-.
  apply split_page_marks in P; [|now apply (counts_nonneg ss)]. subst ms.
  assert (Hy' : run_start n cs + total cs <= 2 ^ width F) by (pose proof (top_pow F); lia).
  exists (split_marks first cs mss0). split.
  - apply split_marks_perm. apply (described_perm R F cs r0 r); try assumption; [eapply Forall2_len, Hp0|eapply Forall2_len, Hp|].
    now apply (placed_perm R n).
  - split; [|now split]. intros Hs. pose proof (settled_counts prog w s ss cs Hs Hw Hc) as Nd.
    pose proof (placed_once R n cs r0 r Hy' Nd Hp0 Hp) as ->. now rewrite (described_list_same R R F r mss mss0 Wr Dm Dm0).
Qed.
Lemma done_split (R : Rust) F prog w s ss (a : addr F) n cs r h us first mss ms ts :
    In w split_words -> means F s a n -> counts_text ss cs -> placed n cs r ->
    split_inside n cs -> highest n h ->
    let y := run_start n cs + total cs in
    N.max y (value h) <> top F -> ranged F (N.min y (value h)) (N.max y (value h)) us ->
    depicted n None first -> Forall2 (fun e ms => depicted e None ms) r mss -> split_page first cs mss ms ->
    Forall2 net_spelled us ts ->
    done R (prog :: w :: s :: ss) (ms ++ says (lit "Unused networks:") :: map says ts) 0%Z.
Proof.
  intros Hw M Hc Hp Hi Hh y Hy Hr Df Dm P Ht.
  destruct (done_split_found R F prog w s ss a n cs r first mss ms Hw M Hc Hp (proj1 Hi) Df Dm P h Hh) as (ms' & Pm & Es & _ & X).
  destruct (X Hi Hy) as (b & us0 & Vb & Eb & E & D). fold y in Eb. rewrite <- Eb in Hy, Hr.
  assert (Wu : Forall wf_net us) by (apply wf_cidrs, Hr). apply (c88_ranged R F b h us Vb (proj1 Hh) Hy) in Hr.
  assert (us0 = us) as -> by congruence. apply (spelled_nets R) in Ht; [|exact Wu]. subst ts. rewrite says_map.
  eexists. split; [exact D|]. split; [now apply Permutation_app_tail|]. intros Hs. now rewrite (Es Hs).
Qed.
Lemma done_split_small (R : Rust) F prog w s ss (a : addr F) n cs r first mss ms :
    In w split_words -> means F s a n -> counts_text ss cs -> placed n cs r ->
    run_start n cs + total cs <= top F -> ~ split_inside n cs ->
    depicted n None first -> Forall2 (fun e ms => depicted e None ms) r mss -> split_page first cs mss ms ->
    done R (prog :: w :: s :: ss) (ms ++ [says (lit "Network is too small")]) 0%Z.
Proof.
  intros Hw M Hc Hp Hy Hi Df Dm P. destruct (means_wf R F s a n M) as [_ Wn]. destruct (c25_last_addr R F n Wn) as (h & _ & Hh).
  destruct (done_split_found R F prog w s ss a n cs r first mss ms Hw M Hc Hp Hy Df Dm P h Hh) as (ms' & Pm & Es & X & _).
  eexists. split; [exact (X Hi)|]. split; [now apply Permutation_app_tail|]. intros Hs. now rewrite (Es Hs).
Qed.
Lemma done_split_impossible (R : Rust) F prog w s ss (a : addr F) n cs first ms :
    In w split_words -> means F s a n -> counts_text ss cs -> top F < run_start n cs + total cs ->
    depicted n None first -> split_page first [] [] ms ->
    does (prog :: w :: s :: ss) (ms ++ [says (lit "Not enough addresses available for this split.")]) 1%Z.
Proof.
  intros Hw M Hc Hy Df P. destruct (means_wf R F s a n M) as [_ Wn]. destruct (c25_last_addr R F n Wn) as (h & _ & Hh).
  destruct (c62_split R F prog w s ss a n cs h Hw M Hc Hh) as (first0 & Df0 & X & _).
  apply (depicted_described R) in Df; [|exact Wn|discriminate]. pose proof (c67_described_once R F n None first first0 Wn Df Df0) as <-.
  apply split_page_marks in P; [|constructor]. subst ms. now apply X.
Qed.
Lemma duty_done (R : Rust) args ms z : duty usize_bits args ms z -> done R args ms z.
Proof.
  intros H. destruct H.
  - apply done_by, c62_usage. now left.
  - apply done_by, c62_usage. right. exists prog, w, rest. split; [reflexivity|exact H].
  - apply done_by. intros T. reflexivity.
  - apply done_by. exact (c69_colour_test R prog rest).
  - apply done_by. now apply (done_show R).
  - apply done_by. apply no_command_hd in H. apply (c87_show R); [apply H| |exact H1].
    intros t Ht. apply (sensible_iff R). rewrite Forall_forall in H0. now apply H0.
  - apply done_by. now apply (done_enumerate R).
  - apply done_by. now apply (done_minimize R F prog w ss l r ts).
  - apply done_by. now apply (c87_minimize R F).
  - apply done_by. exact (proj2 (c62_minimize_error R F prog w pre post s H H1) H0 G H3 H2).
  - apply done_by. now apply (done_derange R F prog w s t a b r ts).
  - apply done_by. exact (proj1 (c87_derange R V4 prog w s t (dummy V4) e H) H0).
  - apply done_by. exact (proj2 (c87_derange R F prog w s t a e H) H0 H1).
  - apply done_by. exact (proj2 (proj2 (c62_derange_error R F G prog w s t a b H)) H0 H1 H2).
  - apply done_by. now apply (done_resize R F prog w s t a n m r o first mss ms).
  - apply done_by. exact (proj1 (c87_resize R V4 prog w s t (dummy V4) (dummy_net V4) e H) H0).
  - apply done_by. exact (proj2 (c87_resize R F prog w s t a n e H) H0 H1).
  - apply done_by. exact (proj1 (proj2 (proj2 (c62_resize_error R F prog w s t a n H))) H0 p H1 H2).
  - apply done_by. exact (proj2 (proj2 (proj2 (c62_resize_error R F prog w s t a n H))) H0 G m H2 H1).
  - now apply (done_split R F prog w s ss a n cs r h us first mss ms ts).
  - now apply (done_split_small R F prog w s ss a n cs r first mss ms).
  - apply done_by. now apply (done_split_impossible R F prog w s ss a n cs first ms).
  - apply done_by. exact (c87_split R prog w s ss cs e H H0 H1).
  - apply done_by. exact (proj1 (proj2 (c62_split_error R V4 prog w s pre post t cs H) (pre_counts pre cs H0 H1)) H2).
  - apply done_by. exact (proj2 (proj2 (c62_split_error R V4 prog w s pre post t cs H) (pre_counts pre cs H0 H1)) c H2 H3).
Qed.

(** ** What is done is to be done *)
Definition answered (R : Rust) (args : list str) : Prop := exists ms z, does args ms z /\ duty usize_bits args ms z.
Lemma answered_by (R : Rust) args ms z : duty usize_bits args ms z -> does args ms z -> answered R args.
Proof. intros H H'. exists ms, z. auto. Qed.
(** For constructors that leave nothing open. *)
Lemma answered_duty (R : Rust) args ms z : duty usize_bits args ms z -> (forall ms', done R args ms z -> does args ms' z -> Permutation ms' ms -> ms' = ms) -> answered R args.
Proof. intros H K. destruct (duty_done R args ms z H) as (ms' & D & P & S). pose proof (K ms' (ex_intro _ ms' (conj D (conj P S))) D P) as ->. exists ms, z. auto. Qed.
Lemma one_mark (m : mark) ms : Permutation ms [m] -> ms = [m].
Proof. intros P. apply Permutation_sym in P. apply Permutation_length_1_inv in P. exact P. Qed.
Lemma answered_one (R : Rust) args m z : duty usize_bits args [m] z -> answered R args.
Proof. intros H. apply (answered_duty R args [m] z H). intros ms' _ _ P. now apply one_mark. Qed.
Lemma answered_misused (R : Rust) prog w rest : miscounted w rest -> answered R (prog :: w :: rest).
Proof. intros H. apply (answered_one R _ (Problem MsgUsage) 1%Z). now apply duty_miscounted. Qed.
Lemma good_family (R : Rust) F s : good R F s -> of_family F s.
Proof. intros (a & n & E). exists a, n. now apply (parse_means R). Qed.
Lemma error_refused (R : Rust) s e : parse_netspec s = Ret (RErr e) -> netspec_refused usize_bits s e.
Proof. apply (c87_netspec R). Qed.

Lemma answered_minimize (R : Rust) prog w rest : In w minimize_words -> answered R (prog :: w :: rest).
Proof.
  intros Hw. destruct (specs_cases R rest) as [(-> & _)|[(F & l & Hne & H & K)|[(F & e & pre & s & post & -> & E & Hp & _)|(F & G & pre & s & post & HF & Hne & -> & Hs & Hp & K)]]].
  - apply answered_misused. right. right. split; [now left|reflexivity].
  - assert (M : Forall2 (fun s an => means F s (fst an) (snd an)) rest l).
    { clear -H. induction H as [|s an ss l Hs H IH]; [constructor|]. constructor; [now apply (parse_means R)|exact IH]. }
    assert (M' : Forall2 (fun s n => exists a, means F s a n) rest (map snd l)).
    { clear -M. induction M as [|s an ss l Hs M IH]; [constructor|]. cbn [map]. constructor; [now exists (fst an)|exact IH]. }
    pose proof (specs_wf R F rest _ M') as Wl.
    destruct (c62_minimize R F prog w rest l Hw Hne M) as (r & E & D).
    destruct (c40_returns R F (map snd l) Wl) as (r1 & E1 & Wr). assert (r1 = r) as -> by congruence.
    apply (answered_by R _ (map says (map net_display r)) 0%Z); [|now rewrite says_map].
    apply (duty_minimize F prog w rest (map snd l) r); [assumption..| |now apply (spelled_nets R)].
    now apply (c78_exact R F (map snd l) r Wl).
  - apply (answered_one R _ (Problem (MsgParsing e)) 1%Z). apply (duty_minimize_unread F); [exact Hw| |now apply (error_refused R)].
    eapply Forall_impl; [|exact Hp]. intros t. apply good_family.
  - apply (answered_one R _ (Problem MsgMixing) 1%Z). apply (duty_minimize_mixed F G); [exact Hw|exact Hne| |now apply (good_family R)|congruence].
    eapply Forall_impl; [|exact Hp]. intros t. apply good_family.
Qed.
Lemma answered_derange (R : Rust) prog w rest : In w derange_words -> answered R (prog :: w :: rest) \/ derange_to_top (prog :: w :: rest).
Proof.
  intros Hw. destruct rest as [|s [|t [|u rest]]];
    try (left; apply answered_misused; left; split; [now left|discriminate]).
  destruct (addr_cases s) as [(F & a & _ & Ha)|(e & Es & Hs)].
  - destruct (addr_cases t) as [(G & b & _ & Hb)|(e & Et & Ht)].
    + destruct (family_dec F G) as [<-|HF].
      * destruct (N.eq_dec (N.max (value a) (value b)) (top F)) as [E|E].
        -- right. exists F, prog, w, s, t, a, b. auto.
        -- left. destruct (c62_derange R F prog w s t a b Hw Ha Hb E) as (r & Er & D).
           apply (c88_ranged R F a b r (addr_valid F s a Ha) (addr_valid F t b Hb) E) in Er.
           apply (answered_by R _ (map says (map net_display r)) 0%Z); [|now rewrite says_map].
           apply (duty_derange F prog w s t a b r); try assumption. apply (spelled_nets R); [apply wf_cidrs, Er|reflexivity].
      * left. apply (answered_one R _ (Problem MsgVersions) 1%Z). now apply (duty_derange_mixed F G prog w s t a b).
    + left. apply (answered_one R _ (Problem (MsgSecondAddr e)) 1%Z). apply (duty_derange_second F prog w s t a e); try assumption. now apply c87_address.
  - left. apply (answered_one R _ (Problem (MsgFirstAddr e)) 1%Z). apply duty_derange_first; [exact Hw|now apply c87_address].
Qed.
Lemma answered_resize (R : Rust) prog w rest : In w resize_words -> answered R (prog :: w :: rest).
Proof.
  intros Hw. destruct rest as [|s [|t [|u rest]]];
    try (apply answered_misused; left; split; [now right|discriminate]).
  destruct (parse_cases R s) as [(F & a & n & _ & M)|(e & Es & N)].
  - destruct (means_wf R F s a n M) as [_ Wn].
    assert (forall m : addr F, mask_text F t m -> answered R [prog; w; s; t]) as K.
    { intros m Hm. pose proof (mask_valid F t m Hm) as Vm.
      destruct (c62_resize R F prog w s t a n m Hw M Hm) as (r & o & first & mss & Er & Df & Dm & X).
      apply (c88_resized R F n m r o Wn Vm) in Er. apply (answered_by R _ (resize_marks first o mss) 0%Z); [|exact X].
      apply (duty_resize F prog w s t a n m r o first mss); [assumption..| | |now apply resize_page_marks].
      - apply (depicted_described R); [exact Wn|discriminate|exact Df].
      - apply (depicted_list R); [now apply (wf_resized n m r o)|exact Dm]. }
    destruct (proj2 (c34_returns R t)) as ([[p|m|m]|e] & E).
    + apply c34_subnet in E. destruct E as [Hwr Hp]. destruct (N.le_gt_cases p (width F)) as [Hle|Hgt].
      * assert (exists m : addr F, valid m /\ value m = prefix_mask F p) as (m & Vm & Em).
        { apply (value_surj (F := F)). unfold prefix_mask. pose proof (pow2_pos (width F - p)). pose proof (pow2_pos (width F)). lia. }
        apply (K m). right. exists p. auto.
      * apply (answered_one R _ (Problem (MsgCidrMax p (width F))) 1%Z). now apply (duty_resize_prefix F prog w s t a n p).
    + apply c34_subnet in E. assert (address_text V4 t m) as At by (split; [intros ->; now apply reads4_chars in E|exact E]).
      destruct F; [apply (K m); now left|].
      apply (answered_one R _ (Problem MsgMask4ForNet6) 1%Z). now apply (duty_resize_mixed V6 V4 prog w s t a n m).
    + apply c34_subnet in E. assert (address_text V6 t m) as At by exact E.
      destruct F; [|apply (K m); now left].
      apply (answered_one R _ (Problem MsgMask6ForNet4) 1%Z). now apply (duty_resize_mixed V4 V6 prog w s t a n m).
    + apply (answered_one R _ (Problem (MsgSubnet t e)) 1%Z). apply (duty_resize_unread F prog w s t a n e); [assumption..|]. now apply c87_subnet.
  - apply (answered_one R _ (Problem (MsgNetspec s e)) 1%Z). apply duty_resize_network; [exact Hw|now apply (error_refused R)].
Qed.
Lemma answered_enumerate (R : Rust) prog w rest : In w enumerate_words -> answered R (prog :: w :: rest).
Proof.
  intros Hw. destruct rest as [|s ss].
  { apply answered_misused. right. right. split; [now right|reflexivity]. }
  destruct (c62_enumerate R prog w (s :: ss) Hw) as (mss & z & H & Hz & D); [discriminate|].
  apply (answered_by R _ (List.concat mss) z); [|exact D]. apply duty_enumerate; [exact Hw|discriminate| |].
  - refine (Forall2_imp _ _ _ _ _ H). intros t ms [(F & a & n & l & M & Hi & Hs & ->)|(N & e & E & ->)].
    + left. exists F, a, n, l. assert (listed n l) as Hl by now split. split; [exact M|]. split; [exact Hl|].
      apply (spelled_addrs R); [now apply (listed_valid n)|reflexivity].
    + right. exists e. split; [now apply (error_refused R)|reflexivity].
  - destruct Hz as [[-> Hz]|[-> (t & Ht & Nt)]].
    + left. split; [|reflexivity]. apply Forall_forall. intros t Ht. apply (sensible_iff R). now apply Hz.
    + right. split; [|reflexivity]. intros Hf. rewrite Forall_forall in Hf. apply Hf in Ht. now apply (sensible_iff R) in Ht.
Qed.
Lemma answered_show (R : Rust) prog w rest : ~ In w command_words -> answered R (prog :: w :: rest).
Proof.
  intros Hw. assert (Hn : no_command (w :: rest)) by (exists w, rest; auto).
  assert ((forall s, In s (w :: rest) -> ~ nonsense s) \/ exists pre s post, w :: rest = pre ++ s :: post /\
    Forall SpecWhole.sensible pre /\ exists e, netspec_refused usize_bits s e) as C.
  { clear Hw Hn. generalize (w :: rest) as ss. induction ss as [|s ss IH]; [left; intros s []|].
    destruct (parse_cases R s) as [(F & a & n & _ & M)|(e & E & N)].
    - assert (SpecWhole.sensible s) as Ss by (exists F, a, n; exact M). destruct IH as [H|(pre & t & post & -> & Hp & Nt)].
      + left. intros t [<-|Ht]; [now apply (sensible_iff R)|auto].
      + right. exists (s :: pre), t, post. split; [reflexivity|]. split; [now constructor|exact Nt].
    - right. exists [], s, ss. split; [reflexivity|]. split; [constructor|]. exists e. now apply (error_refused R). }
  destruct C as [H|(pre & s & post & E & Hp & e & N)].
  - destruct (c62_show R prog (w :: rest)) as (mss & D & X); [discriminate|now intros x [= <-]|exact H|].
    apply (answered_by R _ (spaced mss) 0%Z); [|exact X]. apply duty_show; [exact Hn|].
    refine (Forall2_imp _ _ _ _ _ D). intros s ms (F & a & n & M & Hd). exists F, a, n. split; [exact M|].
    destruct (means_wf R F s a n M) as [Va Wn]. apply (depicted_described R); [exact Wn|now intros x [= <-]|exact Hd].
  - rewrite E in *. apply (answered_one R _ (Problem (MsgError e)) 1%Z). now apply duty_show_unread.
Qed.
Lemma answered_split (R : Rust) prog w rest : In w split_words -> answered R (prog :: w :: rest) \/ split_to_top (prog :: w :: rest).
Proof.
  intros Hw. destruct rest as [|s [|s0 ss']];
    try (left; apply answered_misused; right; left; split; [exact Hw|cbn [List.length]; lia]).
  set (ss := s0 :: ss'). assert (ss <> []) as Hss by discriminate. clearbody ss.
  destruct (counts_cases ss Hss) as [(cs & Hc)|(pre & cs & t & post & -> & Hp & Ht)].
  - destruct (counts_nonneg ss cs Hc) as [Hpos Hne]. destruct (parse_cases R s) as [(F & a & n & _ & M)|(e & E & N)].
    + destruct (means_wf R F s a n M) as [_ Wn]. destruct (c25_last_addr R F n Wn) as (h & _ & Hh).
      destruct (c62_split R F prog w s ss a n cs h Hw M Hc Hh) as (first & Df & P1 & P2).
      apply (depicted_described R) in Df; [|exact Wn|discriminate].
      destruct (N.le_gt_cases (run_start n cs + total cs) (top F)) as [Hle|Hgt].
      * destruct (P2 Hle) as (r & mss & Er & Dm & Q1 & Q2). apply (split_placed R) in Er; [|exact Wn].
        apply (depicted_list R) in Dm; [|now apply (wf_placed n cs)].
        assert (Pg : split_page first cs mss (split_marks first cs mss)) by now apply split_page_marks.
        destruct (inside_dec R n cs Wn Hne) as [Hi|Hi].
        -- destruct (N.eq_dec (N.max (run_start n cs + total cs) (value h)) (top F)) as [E|E].
           ++ right. exists F, prog, w, s, ss, a, n, cs, h. repeat (split; [first [reflexivity|assumption]|]). exact E.
           ++ left. destruct (Q2 Hi E) as (b & us & Vb & Eb & Eu & X).
              assert (Eb' : N.max (value b) (value h) <> top F) by now rewrite Eb.
              apply (c88_ranged R F b h us Vb (proj1 Hh) Eb') in Eu. rewrite Eb in Eu.
              apply (answered_by R _ (split_marks first cs mss ++ says (lit "Unused networks:") :: map says (map net_display us)) 0%Z); [|now rewrite says_map].
              apply (duty_split F prog w s ss a n cs r h us first mss); try assumption. apply (spelled_nets R); [apply wf_cidrs, Eu|reflexivity].
        -- left. apply (answered_by R _ (split_marks first cs mss ++ [says (lit "Network is too small")]) 0%Z); [|exact (Q1 Hi)].
           now apply (duty_split_small F prog w s ss a n cs r first mss).
      * left. destruct (P1 Hgt) as [_ X]. eapply answered_by; [|exact X].
        apply (duty_split_impossible F prog w s ss a n cs first); try assumption. apply split_page_marks; [constructor|reflexivity].
    + left. apply (answered_one R _ (Problem (MsgSplitNetspec s e)) 1%Z). apply (duty_split_network prog w s ss cs); [assumption..|now apply (error_refused R)].
  - left. destruct (counts_pre pre cs Hp) as (cs' & H1 & H2). destruct Ht as [Ht|(c & Hc & Neg)].
    + apply (answered_one R _ (Problem (MsgHostCount t (count_problem t))) 1%Z). now apply (duty_split_count prog w s pre cs').
    + apply (answered_one R _ (Problem MsgHostCountNegative) 1%Z). now apply (duty_split_negative prog w s pre cs' t c).
Qed.
Lemma answered_all (R : Rust) args : answered R args \/ derange_to_top args \/ split_to_top args.
Proof.
  destruct args as [|prog [|w rest]]; [left; apply (answered_one R _ (Problem MsgUsage) 1%Z), duty_nothing; cbn [List.length]; lia..|].
  destruct (run_cases w) as [H|[H|[H|[H|[H|[->|[->|H]]]]]]].
  - left. now apply answered_minimize.
  - destruct (answered_derange R prog w rest H); auto.
  - destruct (answered_split R prog w rest H); auto.
  - left. now apply answered_resize.
  - left. now apply answered_enumerate.
  - left. eapply answered_by; [apply duty_colours|apply (c69_colour_test R)].
  - left. apply (answered_one R _ (Problem MsgUsage) 0%Z). apply duty_help.
  - left. now apply answered_show.
Qed.

(** ** The theorems *)
Lemma c88_sound : forall (R : Rust) (args : list str) (ms : list mark) (z : Z),
  does args ms z -> duty usize_bits args ms z.
Proof.
  intros R args ms z H. destruct (answered_all R args) as [(ms' & z' & H' & D)|T].
  - destruct (does_once R args ms ms' z z' H H') as [-> ->]. exact D.
  - exfalso. specialize (H plain). destruct (proj1 (c62_ends_iff R plain args)) as [N1 N2]; [exists z; now rewrite H|]. tauto.
Qed.
Lemma c88_complete : forall (R : Rust) (args : list str) (ms : list mark) (z : Z),
  duty usize_bits args ms z -> exists ms', does args ms' z /\ Permutation ms' ms.
Proof.
  intros R args ms z H. destruct (duty_done R args ms z H) as (ms' & D & P & S). exists ms'. auto.
Qed.
Lemma c88_exact : forall (R : Rust) (args : list str) (ms : list mark) (z : Z),
  settled args -> (does args ms z <-> duty usize_bits args ms z).
Proof.
  intros R args ms z S. split; [apply c88_sound|]. intros H. destruct (duty_done R args ms z H) as (ms' & D & _ & K). now rewrite <- (K S).
Qed.
Lemma c88_total : forall (bits : N) (args : list str), 16 <= bits ->
  ((exists ms z, duty bits args ms z) <-> ~ derange_to_top args /\ ~ split_to_top args).
Proof.
  intros bits args Hw. pose (R := mk_env true bits Hw). split.
  - intros (ms & z & H). destruct (duty_done R args ms z H) as (ms' & D & _). apply (c62_ends_iff R plain args). exists z. now rewrite (D plain).
  - intros [N1 N2]. destruct (answered_all R args) as [(ms & z & _ & D)|T]; [exists ms, z; exact D|tauto].
Qed.
Lemma c88_unique : forall (bits : N) (args : list str) (ms ms' : list mark) (z z' : Z), 16 <= bits ->
  duty bits args ms z -> duty bits args ms' z' -> z = z' /\ Permutation ms ms' /\ (settled args -> ms = ms').
Proof.
 intros bits args ms ms' z z' Hw H H'. pose (R := mk_env true bits Hw). destruct (duty_done R args ms z H) as (m1 & D & P & S).
  destruct (duty_done R args ms' z' H') as (m2 & D' & P' & S'). destruct (does_once R args m1 m2 z z' D D') as [<- <-].
  split; [reflexivity|]. split; [now rewrite <- P, <- P'|]. intros K. now rewrite <- (S K), <- (S' K).
Qed.
Lemma faults_problems c ms : problems (map (paint c) ms) = faults ms.
Proof. unfold problems, faults. induction ms as [|m ms IH]; cbn [map flat_map]; [reflexivity|]. rewrite IH. f_equal. destruct m, c; reflexivity. Qed.
Lemma c88_process : forall (U : Unicode) (R : Rust) (T : Terminal) (args : list str),
  Forall unicode args -> ~ derange_to_top args -> ~ split_to_top args ->
  exists ms z ls, duty usize_bits args ms z /\ told (faults ms) ls /\
    on_stderr (main args) = lines ls /\ ended (main args) = Ret z /\
    if colors_enabled then seen (on_stdout (main args)) = Some (flat_map drawn ms, Normal)
    else on_stdout (main args) = flat_map ink ms.
Proof.
  intros U R T args Ha N1 N2. destruct (answered_all R args) as [(ms & z & D & H)|[C|C]]; [|contradiction..].
  destruct (worded U R T args Ha) as (ls & Ht & El & _). rewrite (D T) in Ht. cbn [fst] in Ht. rewrite faults_problems in Ht.
  exists ms, z, ls. split; [exact H|]. split; [exact Ht|]. split; [exact El|]. split; [rewrite main_run by exact Ha; cbn [ended]; now rewrite (D T)|].
  destruct colors_enabled eqn:Ec.
  - apply (c70_seen U R args ms (Ret z) T); [exact D|exact Ha|exact Ec].
  - rewrite main_run by exact Ha. cbn [on_stdout]. rewrite (D T), Ec. cbn [fst].
    clear. induction ms as [|m ms IH]; cbn [map flat_map]; [reflexivity|]. rewrite IH. f_equal. now destruct m.
Qed.
