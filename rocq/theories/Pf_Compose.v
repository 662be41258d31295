(** * Pf_Compose: proofs for P_Compose *)
From Verif Require Import RustBase Addr BitManip Cidr Net Console Derange Minimize Resize Enumerate Split Main Spec SpecIO Bits Weave Bytes Laws NetFacts SetFacts Family Loops Blocks Order EnumFacts ResizeFacts DerangeFacts SplitFacts EnvFacts Demo Pf_Net Pf_Enum Pf_Derange Pf_Minimize Pf_Resize Pf_Split.
From Coq Require Import ZifyBool ZifyNat ZifyN.
Ltac Zify.zify_post_hook ::= idtac.

Definition before {F} (n n' : net F) : Prop :=
  value (base_addr n) < value (base_addr n') \/
  value (base_addr n) = value (base_addr n') /\ value (subnet_mask n) < value (subnet_mask n').

Lemma member_base {F} (n : net F) : member n (base_addr n).
Proof. intros i _ _. reflexivity. Qed.

Lemma one_net {F} (n : net F) p : is_cidr n p -> Forall (fun n => exists p, is_cidr n p) [n].
Proof. intros H. constructor; [eauto|constructor]. Qed.

Lemma minimize_one (R : Rust) (F : family) (n : net F) p : is_cidr n p -> minimize_subnets [n] = Ret [n].
Proof.
  intros Hn. pose proof (one_net n p Hn) as H1.
  destruct (c39_same_addresses R F [n] (cidr_wf_list _ H1)) as (r & E & Hs).
  destruct (c42_shortest R F [n] [n] r H1 E H1 ltac:(reflexivity)) as [Hr Hlen]. rewrite E. f_equal.
  destruct r as [|m r].
  - exfalso. destruct (proj2 (Hs (base_addr n) (wf_base n (proj1 Hn)))) as (e & [] & _).
    exists n. split; [now left|apply member_base].
  - destruct r as [|m' r]; [|cbn in Hlen; lia]. f_equal. inversion Hr as [|? ? [q Hm] _]; subst.
    apply (c21_extensionality R F); [apply Hm|apply Hn|]. intros a Ha. specialize (Hs a Ha).
    assert (L : forall x : net F, (exists e, In e [x] /\ member e a) <-> member x a).
    { intros x. split; [intros (e & [<-|[]] & H); exact H|intros H; exists x; split; [now left|exact H]]. }
    rewrite !L in Hs. exact Hs.
Qed.

Lemma minimize_to (R : Rust) (F : family) (n : net F) p l :
  is_cidr n p -> Forall (fun n => exists p, is_cidr n p) l ->
  (forall c : addr F, valid c -> (member n c <-> exists e, In e l /\ member e c)) ->
  minimize_subnets l = Ret [n].
Proof.
  intros Hn Hl H. rewrite <- (minimize_one R F n p Hn).
  apply (c43_canonical R R F [n] l (one_net n p Hn) Hl). intros c Hc. rewrite <- (H c Hc).
  split; [intros M; exists n; split; [now left|exact M]|intros (e & [<-|[]] & M); exact M].
Qed.

Lemma c64_derange : forall (R : Rust) (F : family) (a b : addr F) (l l' : list (net F)),
  valid a -> valid b -> range_to_subnets a b = Ret l -> (forall n, In n l <-> In n l') ->
  minimize_subnets l' = Ret l.
Proof.
  intros R F a b l l' Ha Hb E Hin.
  assert (Hi : N.max (value a) (value b) + 1 < 2 ^ width F).
  { pose proof (proj1 (c37_returns_iff R F a b Ha Hb) (ex_intro _ l E)).
    pose proof (value_lt a Ha). pose proof (value_lt b Hb). lia. }
  destruct (c35_covers_exactly R F a b Ha Hb Hi) as (l0 & E0 & Hc & Hcov & Hs). rewrite E in E0. injection E0 as <-.
  rewrite (c44_deterministic R R F l l' (cidr_wf_list l Hc) Hin).
  destruct (c39_same_addresses R F l (cidr_wf_list l Hc)) as (r & Er & Hu). rewrite Er. f_equal.
  destruct (c42_shortest R F l l r Hc Er Hc ltac:(reflexivity)) as [Cr Hlen].
  assert (Pm : Permutation l r).
  { apply (c36_unique R F a b l r Ha Hb E Cr); [|assumption]. intros c Vc. rewrite (Hu c Vc). apply Hcov, Vc. }
  symmetry. apply (strictly_sorted_ext before).
  - intros x [H|[_ H]]; lia.
  - intros x y z [H|[H H']] [G|[G G']]; unfold before; lia.
  - rewrite Forall_forall in Hc. apply (Pf_Resize.StronglySorted_impl _ before l) in Hs; [exact Hs|].
    intros x y Hx Hy H. left. destruct (Hc x Hx) as [px [Wx _]]. destruct (Hc y Hy) as [py [Wy _]].
    apply H; try apply member_base; now apply wf_base.
  - exact (c44_sorted R F l r (cidr_wf_list l Hc) Er).
  - intros x. split; apply Permutation_in; [exact Pm|now symmetry].
Qed.

Lemma c64_derange_network : forall (R : Rust) (F : family) (n : net F) (p : N) (h : addr F),
  is_cidr n p -> last_addr_of_subnet n = Ret h -> value h <> 2 ^ width F - 1 ->
  range_to_subnets (base_addr n) h = Ret [n].
Proof.
  intros R F n p h Hn Eh Ht. destruct (is_cidr_cidr n p Hn) as [Cn _]. destruct (size_cidr n p Hn) as [_ Esn].
  destruct (last_addr_value n h Cn Eh) as [Oh Vh]. apply valid_ok in Oh.
  pose proof (wf_base n (proj1 Hn)) as Vb. rewrite Esn in Vh. rewrite !value_v in Vh by assumption.
  pose proof (pow2_pos (width F - p)).
  assert (Hlt : value h + 1 < 2 ^ width F) by (pose proof (value_lt h Oh); lia).
  assert (Em : N.max (value (base_addr n)) (value h) = value h) by lia.
  assert (En : N.min (value (base_addr n)) (value h) = value (base_addr n)) by lia.
  destruct (c35_covers_exactly R F (base_addr n) h Vb Oh) as (l & E & Hc & Hcov & Hs); [lia|].
  rewrite E. f_equal.
  assert (Hsame : forall c : addr F, valid c -> (N.min (value (base_addr n)) (value h) <= value c <= N.max (value (base_addr n)) (value h) <->
            exists m, In m [n] /\ member m c)).
  { intros c Vc. rewrite Em, En.
    transitivity (member n c); [rewrite (member_interval n p c Hn Vc); lia|].
    split; [intros M; exists n; split; [now left|exact M]|intros (e & [<-|[]] & M); exact M]. }
  assert (Pm : Permutation l [n]).
  { apply (c36_unique R F _ _ l [n] Vb Oh E (one_net n p Hn) Hsame).
    destruct l as [|x l]; [|cbn; lia]. exfalso.
    destruct (proj1 (Hcov (base_addr n) Vb)) as (e & [] & _). rewrite Em, En. lia. }
  symmetry in Pm. now apply Permutation_length_1_inv in Pm.
Qed.

Lemma c64_resize : forall (R : Rust) (F : family) (n : net F) (p : N) (m : addr F) (q : N) (l : list (net F)) (o : comparison),
  is_cidr n p -> valid m -> contiguous F (value m) q -> p < q ->
  resize_network n m = Ret (l, o) -> minimize_subnets l = Ret [n].
Proof.
  intros R F n p m q l o Hn Hm Hq Hlt E.
  destruct (c53_subnets_cidr R F n m p q Hn Hm Hq Hlt) as (l0 & E0 & _ & Hc & Hu & _).
  rewrite E in E0. injection E0 as <- _.
  apply (minimize_to R F n p l Hn); [|exact Hu]. eapply Forall_impl; [|exact Hc]. intros e He. exists q. exact He.
Qed.

Lemma host_member `{R : Rust} {F} (h : net F) a : is_cidr h (width F) -> valid a -> (member h a <-> a = base_addr h).
Proof.
  intros Hh Ha. rewrite (member_interval h (width F) a Hh Ha). rewrite N.sub_diag. change (2 ^ 0) with 1.
  split; [|intros ->; lia]. intros H. apply value_inj; [assumption|apply wf_base, Hh|lia].
Qed.

Lemma c64_enumerate : forall (R : Rust) (F : family) (n : net F) (p : N) (l : list (addr F)) (hs : list (net F)),
  is_cidr n p -> enumerate_net n = Ret l ->
  Forall (fun h => is_cidr h (width F)) hs ->
  (forall a, In a l <-> exists h, In h hs /\ base_addr h = a) ->
  minimize_subnets hs = Ret [n].
Proof.
  intros R F n p l hs Hn E Hh Hin. destruct (c55_lists_exactly R F n (proj1 Hn)) as (l0 & E0 & Hl & _).
  rewrite E in E0. injection E0 as <-. apply (minimize_to R F n p hs Hn).
  - eapply Forall_impl; [|exact Hh]. intros h H. exists (width F). exact H.
  - rewrite Forall_forall in Hh. intros c Vc. split.
    + intros M. destruct (proj1 (Hin c) (proj2 (Hl c) (conj Vc M))) as (h & Hi & <-). exists h. split; [assumption|apply member_base].
    + intros (h & Hi & M). apply host_member in M; auto. apply Hl, Hin. eauto.
Qed.

Lemma split_pieces_cidr (R : Rust) (F : family) (n : net F) cs r :
  wf_net n -> split_subnet n cs = Ret (Some r) -> Forall (fun n => exists p, is_cidr n p) r.
Proof.
  intros Hn E. destruct (split_some R F n cs r Hn E) as (_ & ns & Pm & Ht & _). apply tiles_cidr in Ht.
  apply cidr_iff_list in Ht. rewrite Forall_forall in *. intros x Hx. apply Ht. now apply (Permutation_in _ Pm).
Qed.

Lemma c64_split : forall (R : Rust) (T : Terminal) (F : family) (n : net F) (p : N) (cs : list Z) (r : list (net F))
    (out : net F -> option (addr F) -> io unit),
  is_cidr n p -> cs <> [] -> prints out -> split_subnet n cs = Ret (Some r) ->
  total cs < 2 ^ (width F - p) -> value (base_addr n) + 2 ^ (width F - p) < 2 ^ width F ->
  exists us, output_split n cs out =
    (split_report out n cs r ++ [line (lit "Unused networks:")] ++ map (fun u => line (net_display u)) us, Ret 0%Z) /\
    minimize_subnets (r ++ us) = Ret [n] /\ minimize_subnets us = Ret us.
Proof.
  intros R T F n p cs r out Hn Hne Hp E Hfit Htop.
  pose proof (fits_start n p cs Hn ltac:(lia)) as Est.
  destruct (output_spec R T F n p cs r out Hn Hne Hp E) as (nx & la & Vn & Vl & En & El & Eo).
  rewrite Est in En, Eo. rewrite (proj2 (N.leb_le _ _)) in Eo by lia.
  destruct (split_some R F n cs r (proj1 Hn) E) as (Hlt & ns & Pm & Ht & _ & _).
  assert (Hmax : N.max (value nx) (value la) + 1 = value (base_addr n) + 2 ^ (width F - p)) by lia.
  assert (Hmin : N.min (value nx) (value la) = value (base_addr n) + total cs) by lia.
  destruct (range_tiles R F nx la Vn Vl) as (us & Eu & Tu); [lia|]. rewrite Eu in Eo. rewrite Hmin, Hmax in Tu. rewrite Est in Ht.
  exists us. split; [exact Eo|].
  split; [|apply (c64_derange R F nx la us us Vn Vl Eu); reflexivity].
  apply (minimize_to R F n p _ Hn).
  - apply Forall_app. split; [exact (split_pieces_cidr R F n cs r (proj1 Hn) E)|apply cidr_iff_list; eapply tiles_cidr, Tu].
  - intros c Vc. rewrite (member_interval n p c Hn Vc).
    assert (G : (exists e, In e (r ++ us) /\ member e c) <-> (exists e, In e ns /\ member e c) \/ (exists e, In e us /\ member e c)).
    { rewrite <- (perm_member r ns c) by assumption. split.
      - intros (e & He & M). apply in_app_or in He. destruct He; eauto.
      - intros [(e & He & M)|(e & He & M)]; exists e; (split; [apply in_or_app; auto|exact M]). }
    rewrite G, (tiles_member ns _ _ c Ht Vc), (tiles_member us _ _ c Tu Vc). lia.
Qed.

Lemma c64_union : forall (R : Rust) (F : family) (l1 l2 r1 r2 : list (net F)),
  Forall (fun n => exists p, is_cidr n p) l1 -> Forall (fun n => exists p, is_cidr n p) l2 ->
  minimize_subnets l1 = Ret r1 -> minimize_subnets l2 = Ret r2 ->
  minimize_subnets (r1 ++ r2) = minimize_subnets (l1 ++ l2).
Proof.
  intros R F l1 l2 r1 r2 H1 H2 E1 E2.
  destruct (c42_shortest R F l1 l1 r1 H1 E1 H1 ltac:(reflexivity)) as [C1 _].
  destruct (c42_shortest R F l2 l2 r2 H2 E2 H2 ltac:(reflexivity)) as [C2 _].
  destruct (c39_same_addresses R F l1 (cidr_wf_list _ H1)) as (r1' & E1' & U1). rewrite E1 in E1'. injection E1' as <-.
  destruct (c39_same_addresses R F l2 (cidr_wf_list _ H2)) as (r2' & E2' & U2). rewrite E2 in E2'. injection E2' as <-.
  apply (c43_canonical R R F); [now apply Forall_app|now apply Forall_app|].
  intros c Vc. specialize (U1 c Vc). specialize (U2 c Vc).
  assert (G : forall a b : list (net F), (exists e, In e (a ++ b) /\ member e c) <-> (exists e, In e a /\ member e c) \/ (exists e, In e b /\ member e c)).
  { intros a b. split.
    - intros (e & He & M). apply in_app_or in He. destruct He; eauto.
    - intros [(e & He & M)|(e & He & M)]; exists e; (split; [apply in_or_app; auto|exact M]). }
  rewrite !G. tauto.
Qed.

Lemma c65_contains_enumerate : forall (R : Rust) (F : family) (n : net F) (l : list (addr F)) (a : addr F),
  wf_net n -> valid a -> enumerate_net n = Ret l -> (contains n a = true <-> In a l).
Proof.
  intros R F n l a Hn Ha E. destruct (c55_lists_exactly R F n Hn) as (l0 & E0 & Hl & _).
  rewrite E in E0. injection E0 as <-. rewrite (c19_contains R F n a Hn Ha), Hl. tauto.
Qed.

Lemma c65_contains_host : forall (R : Rust) (F : family) (n h : net F),
  wf_net n -> is_cidr h (width F) ->
  is_superset_of n h = contains n (base_addr h) /\
  (forall p, is_cidr n p -> intersects n h = Ret (contains n (base_addr h))).
Proof.
  intros R F n h Hn Hh. pose proof (wf_base h (proj1 Hh)) as Vh.
  assert (Hs : is_superset_of n h = contains n (base_addr h)).
  { apply eq_true_iff_eq. rewrite (c20_superset R F n h Hn (proj1 Hh)), (c19_contains R F n _ Hn Vh). split.
    - intros H. apply H; [assumption|apply member_base].
    - intros M a Va Ma. apply host_member in Ma; auto. now subst. }
  split; [assumption|]. intros p Hp. destruct (c22_intersects_cidr R F n h p _ Hp Hh) as (r & E & Hr). rewrite E. f_equal.
  apply eq_true_iff_eq. rewrite Hr, (c19_contains R F n _ Hn Vh). split.
  - intros (a & Va & Ma & Mh). apply host_member in Mh; auto. now subst.
  - intros M. exists (base_addr h). split; [assumption|]. split; [assumption|apply member_base].
Qed.

Lemma listed_NoDup {F} (l : list (addr F)) : StronglySorted (fun a b => value a < value b) l -> NoDup l.
Proof.
  induction 1 as [|a l S IH Hf]; constructor; [|assumption]. intros Hi. rewrite Forall_forall in Hf.
  specialize (Hf a Hi). lia.
Qed.

Lemma c65_enumerate_count : forall (R : Rust) (F : family) (n : net F) (l : list (addr F)),
  wf_net n -> enumerate_net n = Ret l -> N.of_nat (List.length l) = address_count n.
Proof.
  intros R F n l Hn E. destruct (c55_lists_exactly R F n Hn) as (l0 & E0 & Hl & Hs).
  rewrite E in E0. injection E0 as <-. destruct (c23_address_count R F n Hn) as [(l1 & N1 & H1 & <-) _]. f_equal.
  apply Nat.le_antisymm; apply NoDup_incl_length; try assumption; try (now apply listed_NoDup); intros a Ha;
    [apply H1, Hl, Ha|apply Hl, H1, Ha].
Qed.

Lemma c65_superset_count : forall (R : Rust) (F : family) (n n' : net F),
  wf_net n -> wf_net n' -> is_superset_of n n' = true ->
  exists k, address_count n = 2 ^ k * address_count n' /\ (k = 0 -> n = n').
Proof.
  intros R F n n' Hn Hn' S. apply (c20_superset R F n n' Hn Hn') in S.
  destruct (c23_address_count R F n Hn) as [(l & N1 & H1 & L1) E]. destruct (c23_address_count R F n' Hn') as [(l' & N1' & H1' & L1') E'].
  assert (Hi : incl l' l). { intros a Ha. apply H1' in Ha. apply H1. split; [apply Ha|]. now apply S. }
  pose proof (NoDup_incl_length N1' Hi) as Hlen. rewrite E in *. rewrite E' in *. clear E E'.
  set (k := N.of_nat (zeros _ (value (subnet_mask n)))) in *. set (k' := N.of_nat (zeros _ (value (subnet_mask n')))) in *.
  assert (Hk : k' <= k). { apply (N.pow_le_mono_r_iff 2); [lia|]. rewrite <- L1, <- L1'. lia. }
  exists (k - k'). split; [rewrite <- N.pow_add_r; f_equal; lia|].
  intros H0. assert (Ek : k = k') by lia. rewrite Ek in L1.
  apply (c21_extensionality R F); try assumption. intros a Va. split; [|apply S; assumption]. intros M.
  assert (Hi' : incl l l') by (apply NoDup_length_incl; [assumption|lia|assumption]).
  apply H1', Hi', H1. auto.
Qed.

Lemma ctrue_zero l : ctrue l = 0%nat -> bval l = 0.
Proof.
  intros H. assert (E : l = repeat false (List.length l)); [|rewrite E; apply bval_repeat_false].
  induction l as [|b l IH]; [reflexivity|]. rewrite ctrue_cons in H. destruct b; [lia|]. cbn [List.length repeat].
  f_equal. apply IH. lia.
Qed.

Lemma host_in_place `{R : Rust} {F} (n n' : net F) :
  okN n -> okN n' -> subnet_mask n' = subnet_mask n -> rk (subnet_mask n) (base_addr n') = rk (subnet_mask n) (base_addr n) -> n' = n.
Proof.
  intros Hn Hn' Em E. apply same_net; try assumption. pose proof (rk_base n' Hn') as E'. rewrite Em in E'. rewrite E' in E.
  rewrite (rk_base n Hn) in E. pose proof (size_pos n). unfold size in *. rewrite Em in E.
  apply N.mul_cancel_r in E; [assumption|lia].
Qed.

Lemma resize_cases (R : Rust) (F : family) (n : net F) m l o : okN n -> okA m -> resize_network n m = Ret (l, o) ->
  o = Nat.compare (hf (subnet_mask n)) (hf m).
Proof.
  intros Hn Hm E. destruct (Nat.compare_spec (hf (subnet_mask n)) (hf m)) as [H|H|H].
  - destruct (resize_same n m Hn Hm (eq_sym H)) as (n' & E' & _). congruence.
  - destruct (resize_super n m Hn Hm H) as (n' & E' & _). congruence.
  - destruct (resize_sub n m Hn Hm H) as (l' & E' & _). congruence.
Qed.

Lemma c66_there_and_back : forall (R : Rust) (F : family) (n e : net F) (m : addr F) (l : list (net F)),
  wf_net n -> valid m -> resize_network n m = Ret (l, Gt) -> In e l ->
  resize_network e (subnet_mask n) = Ret ([n], Lt).
Proof.
  intros R F n e m l Hn Hm E He. apply wf_okN in Hn. apply valid_ok in Hm.
  pose proof (resize_cases R F n m l Gt Hn Hm E) as Hc. symmetry in Hc. apply nat_compare_gt in Hc.
  destruct (resize_sub n m Hn Hm ltac:(lia)) as (l0 & E0 & Hs & Hlen). rewrite E in E0. injection E0 as <-.
  apply In_nth_error in He. destruct He as [j Ej]. destruct (Hs j e Ej) as (Oe & Em & En).
  assert (Hj : (j < List.length l)%nat) by (apply nth_error_Some; congruence).
  destruct (resize_super e (subnet_mask n) Oe (okN_mask n Hn)) as (n' & E' & On' & Em' & Er); [rewrite Em; lia|].
  rewrite E'. do 3 f_equal. apply host_in_place; try assumption. rewrite Er, Em.
  pose proof (rk_base e Oe) as Re. rewrite Em in Re. rewrite Re, En. rewrite (rk_base n Hn). unfold size. rewrite Em.
  set (hn := N.of_nat (hf (subnet_mask n))) in *. set (hm := N.of_nat (hf m)) in *.
  assert (P : 2 ^ hn = 2 ^ (hn - hm) * 2 ^ hm). { rewrite <- N.pow_add_r. f_equal. lia. }
  set (x := nv (subnet_mask n) (base_addr n)). rewrite N.mul_add_distr_r, <- N.mul_assoc, <- P.
  assert (Hjl : N.of_nat j * 2 ^ hm < 2 ^ hn). { rewrite P. apply (proj1 (N.mul_lt_mono_pos_r (2 ^ hm) _ _ (pow2_pos hm))). rewrite <- Hlen. change (network (addr F)) with (net F). lia. }
  rewrite N.add_comm, N.mod_add, N.mod_small by (assumption || (pose proof (pow2_pos hn); lia)). lia.
Qed.

Lemma c66_back_and_there : forall (R : Rust) (F : family) (n n' : net F) (m : addr F) (l : list (net F)),
  wf_net n -> valid m -> resize_network n m = Ret ([n'], Lt) ->
  resize_network n' (subnet_mask n) = Ret (l, Gt) -> In n l.
Proof.
  intros R F n n' m l Hn Hm E E'. apply wf_okN in Hn. apply valid_ok in Hm.
  pose proof (resize_cases R F n m _ Lt Hn Hm E) as Hc. symmetry in Hc. apply nat_compare_lt in Hc.
  destruct (resize_super n m Hn Hm Hc) as (n0 & E0 & On' & Em & Er). rewrite E in E0. injection E0 as <-.
  destruct (resize_sub n' (subnet_mask n) On' (okN_mask n Hn) ltac:(rewrite Em; lia)) as (l0 & E0 & Hs & Hlen).
  rewrite E' in E0. injection E0 as <-.
  pose proof (sublist_union n' (subnet_mask n) l On' (okN_mask n Hn) Hs ltac:(rewrite Em; lia) Hlen (base_addr n) (okN_base n Hn)) as U.
  destruct (proj2 U) as (e & He & M).
  - rewrite Em, Er. unfold size. rewrite Em. set (x := rk _ (base_addr n)). set (D := 2 ^ N.of_nat (hf m)).
    assert (D <> 0) by (pose proof (pow2_pos (N.of_nat (hf m))); unfold D; lia).
    pose proof (N.mod_lt x D ltac:(assumption)). pose proof (N.mod_le x D ltac:(assumption)). lia.
  - pose proof He as He'. apply In_nth_error in He. destruct He as [j Ej]. destruct (Hs j e Ej) as (Oe & Eme & _).
    assert (e = n); [|now subst]. apply same_net; try assumption. unfold mem in M. rewrite Eme in M. now symmetry.
Qed.

Lemma c66_all_networks : forall (R : Rust) (F : family) (n : net F) (m : addr F),
  is_cidr n 0 -> valid m -> value m <> 0 ->
  exists l, resize_network n m = Ret (l, Gt) /\ NoDup l /\
    forall e, In e l <-> wf_net e /\ subnet_mask e = m.
Proof.
  intros R F n m Hn Hm Hnz. pose proof (proj2 Hn) as Hp. rewrite (wf_prefix n (proj1 Hn)) in Hp.
  pose proof (wf_mask n (proj1 Hn)) as Vm. pose proof (wf_base n (proj1 Hn)) as Vb.
  pose proof (host_bits_cidr (subnet_mask n) 0 Vm Hp) as Hw. rewrite N.sub_0_r in Hw.
  assert (Hlt : host_bits m < width F).
  { rewrite (host_bits_hf m Hm), width_W. pose proof (kt_hf m) as K. destruct (Nat.eq_0_gt_0_cases (kt m)) as [Z|]; [|lia].
    exfalso. apply Hnz. rewrite <- (value_v m Hm). unfold v. apply ctrue_zero, Z. }
  rewrite <- Hw in Hlt.
  destruct (c53_subnets R F n m (proj1 Hn) Hm Hlt) as (l & E & _ & Hl & Hu & Hs).
  exists l. split; [assumption|]. split.
  { clear -Hs. induction Hs as [|x l S IH Hf]; constructor; [|assumption]. intros Hi. rewrite Forall_forall in Hf.
    specialize (Hf x Hi). lia. }
  rewrite Forall_forall in Hl. intros e. split; [apply Hl|]. intros [We Eme].
  destruct (proj2 (Hu (base_addr e) (wf_base e We))) as (e' & He' & M).
  - rewrite !position_rk by (assumption || apply (wf_base e We)). rewrite (rk_cidr _ _ 0 Vm Vb Hp).
    assert (value (base_addr n) = 0) as ->.
    { pose proof (proj1 (member_interval n 0 (base_addr n) Hn Vb) (member_base n)).
      destruct (value_surj (F := F) 0 (pow2_pos _)) as (z & Vz & Ez).
      assert (member n z) as Mz. { intros i Hi Ht. destruct Hp as [_ Hp]. rewrite Hp in Ht. unfold prefix_mask in Ht.
        rewrite N.sub_0_r, N.sub_diag, N.bits_0 in Ht. discriminate. }
      apply (member_interval n 0 z Hn Vz) in Mz. lia. }
    split; [lia|]. rewrite Hw, width_W. apply rk_lt.
  - destruct (Hl e' He') as [We' Em']. assert (e' = e); [|now subst]. apply (c21_extensionality R F); try assumption.
    intros a Va. unfold member in *. rewrite Eme, Em' in *. split; intros H i Hi Ht; specialize (H i Hi Ht); specialize (M i Hi Ht); congruence.
Qed.
