(** * Pf_Count: proofs for P_Count *)
From Verif Require Import RustBase Addr BitManip Cidr Net Derange Minimize Split Resize Spec SpecCount Bits Laws NetFacts SetFacts Family Pf_Net Pf_Minimize Pf_Derange Pf_Split Pf_Resize Demo.
From Coq Require Import ZifyBool ZifyNat ZifyN.
Ltac Zify.zify_post_hook ::= idtac.

Lemma NoDup_app_iff {X} (l l' : list X) :
  NoDup (l ++ l') <-> NoDup l /\ NoDup l' /\ forall x, In x l -> ~ In x l'.
Proof.
  split.
  - induction l as [|x l IH]; cbn [app]; intros H.
    + split; [constructor|]. split; [assumption|]. intros x [].
    + inversion H as [|? ? Hx Hn]; subst. destruct (IH Hn) as (H1 & H2 & H3). rewrite in_app_iff in Hx.
      split; [constructor; tauto|]. split; [assumption|]. intros y [<-|Hy]; [tauto|auto].
  - intros (H1 & H2 & H3). now apply NoDup_app_intro.
Qed.

(** All addresses of all networks. *)
Lemma all_of {F} (l : list (net F)) ks : Forall2 count l ks ->
  exists M, (forall a, In a M <-> valid a /\ covered l a) /\ N.of_nat (List.length M) = fold_right N.add 0 ks /\
    (NoDup M <-> disjoint_nets l).
Proof.
  induction 1 as [|n k l ks (Ln & N1 & N2 & N3) _ (M & M1 & M2 & M3)].
  - exists []. split; [|split; [reflexivity|split; constructor]]. intros a. split; [intros []|]. intros [_ (n & [] & _)].
  - exists (Ln ++ M). split; [|split].
    + intros a. rewrite in_app_iff, N2, M1. unfold covered. split.
      * intros [[Va Ha]|[Va (m & Hm & Ha)]]; (split; [assumption|]); [exists n|exists m]; cbn; auto.
      * intros [Va (m & [<-|Hm] & Ha)]; [auto|]. right. split; [assumption|]. now exists m.
    + rewrite app_length. cbn [fold_right]. lia.
    + rewrite NoDup_app_iff. unfold disjoint_nets in *. split.
      * intros (_ & HM & Hd). constructor; [|now apply M3]. apply Forall_forall. intros m Hm (a & Va & Hn & Hma).
        apply (Hd a); [now apply N2|]. apply M1. split; [assumption|]. now exists m.
      * intros H. inversion H as [|? ? Hf Hd]; subst. split; [assumption|]. split; [now apply M3|].
        intros a Ha Ha'. apply N2 in Ha. apply M1 in Ha'. destruct Ha as [Va Ha], Ha' as [_ (m & Hm & Hma)].
        rewrite Forall_forall in Hf. apply (Hf m Hm). now exists a.
Qed.

Lemma number_unique {F} (P : addr F -> Prop) k k' : number P k -> number P k' -> k = k'.
Proof.
  intros (l & N1 & H1 & E1) (l' & N2 & H2 & E2). rewrite <- E1, <- E2. f_equal.
  apply Nat.le_antisymm; apply NoDup_incl_length; try assumption; intros a Ha.
  - apply H2, H1, Ha.
  - apply H1, H2, Ha.
Qed.
Lemma number_ext {F} (P Q : addr F -> Prop) k : (forall a, valid a -> (P a <-> Q a)) -> number P k -> number Q k.
Proof.
  intros H (l & N1 & H1 & E1). exists l. split; [assumption|]. split; [|assumption]. intros a. rewrite H1.
  split; intros [Va Ha]; (split; [assumption|]); now apply (H a Va).
Qed.

Lemma sizes_number {F} (l : list (net F)) k : disjoint_nets l -> sizes l k -> number (covered l) k.
Proof.
  intros Hd (ks & Hk & <-). destruct (all_of l ks Hk) as (M & M1 & M2 & M3). exists M. split; [now apply M3|]. auto.
Qed.

Lemma sizes_exists (R : Rust) {F} (l : list (net F)) : Forall wf_net l -> exists k, sizes l k.
Proof.
  intros Hl. assert (H : exists ks, Forall2 count l ks).
  { induction Hl as [|n l Hn Hl [ks IH]]; [exists []; constructor|]. exists (size n :: ks). constructor; [now apply count_size|assumption]. }
  destruct H as [ks H]. now exists (fold_right N.add 0 ks), ks.
Qed.

Lemma sizes_iff (R : Rust) {F} (l : list (net F)) (P : addr F -> Prop) k :
  Forall wf_net l -> disjoint_nets l -> (forall a, valid a -> (covered l a <-> P a)) -> (sizes l k <-> number P k).
Proof.
  intros Hl Hd He. split.
  - intros H. apply (number_ext (covered l)); [assumption|]. now apply sizes_number.
  - intros H. destruct (sizes_exists R l Hl) as [k' Hk']. pose proof (sizes_number l k' Hd Hk') as H'.
    apply (number_ext _ P) in H'; [|assumption]. now rewrite (number_unique P k k' H H').
Qed.

Lemma count_number {F} (n : net F) k : count n k <-> number (member n) k.
Proof. reflexivity. Qed.

Lemma disjoint_sorted {F} (Q : net F -> net F -> Prop) l :
  (forall n n', Q n n' -> ~ share n n') -> StronglySorted Q l -> disjoint_nets l.
Proof.
  intros HQ S. induction S as [|n l S IH Hf]; constructor; [|assumption].
  eapply Forall_impl; [|exact Hf]. intros n' H. now apply HQ.
Qed.
Lemma ordered_disjoint {F} (n n' : net F) :
  (forall x y, valid x -> valid y -> member n x -> member n' y -> value x < value y) -> ~ share n n'.
Proof. intros H (a & Va & Ha & Ha'). specialize (H a a Va Va Ha Ha'). lia. Qed.

Lemma min_disjoint `{R : Rust} {F} (l r : list (net F)) :
  Forall (fun n => exists p, is_cidr n p) l -> minimize_subnets l = Ret r ->
  Forall (fun n => exists p, is_cidr n p) r /\ disjoint_nets r /\ forall a, valid a -> (covered r a <-> covered l a).
Proof.
  intros Hl E. pose proof (cidr_wf_list l Hl) as Hw. split; [|split].
  - apply (c42_shortest R F l l r Hl E Hl). reflexivity.
  - assert (Hnd : NoDup r).
    { pose proof (c44_sorted R F l r Hw E) as S. clear -S. induction S as [|n r S IH Hf]; constructor; [|assumption].
      intros C. rewrite Forall_forall in Hf. specialize (Hf n C). lia. }
    pose proof (c41_irredundant R F l r Hl E) as Hi. clear -Hnd Hi. induction Hnd as [|n r Hn Hnd IH]; constructor.
    + apply Forall_forall. intros n' Hn' Hs. apply Hn. rewrite (Hi n n'); [assumption|now left|now right|assumption].
    + apply IH. intros x y Hx Hy. apply Hi; now right.
  - intros a Ha. destruct (c39_same_addresses R F l Hw) as (r' & E' & H). rewrite E in E'. injection E' as <-. now apply H.
Qed.

Lemma c79_minimize : forall (R : Rust) (F : family) (l r : list (net F)) (k : N),
  Forall (fun n => exists p, is_cidr n p) l -> minimize_subnets l = Ret r ->
  (sizes r k <-> number (covered l) k).
Proof.
  intros R F l r k Hl E. destruct (min_disjoint l r Hl E) as (Hr & Hd & Hc).
  apply (sizes_iff R); [now apply cidr_wf_list|assumption..].
Qed.

Lemma c79_minimize_gain : forall (R : Rust) (F : family) (l r : list (net F)) (k k' : N),
  Forall (fun n => exists p, is_cidr n p) l -> minimize_subnets l = Ret r ->
  sizes l k -> sizes r k' -> k' <= k /\ (k' = k <-> disjoint_nets l).
Proof.
  intros R F l r k k' Hl E (ks & Hk & <-) Hk'. apply (c79_minimize R F l r k' Hl E) in Hk'.
  destruct Hk' as (s & S1 & S2 & <-). destruct (all_of l ks Hk) as (M & M1 & <- & <-).
  assert (Hin : forall a, In a s <-> In a M) by (intros a; now rewrite S2, M1).
  assert (Hle : (List.length s <= List.length M)%nat) by (apply NoDup_incl_length; [assumption|]; intros a Ha; now apply Hin).
  split; [lia|]. split.
  - intros Heq. apply (NoDup_incl_NoDup (l := s)); [assumption|lia|]. intros a Ha. now apply Hin.
  - intros HM. assert ((List.length M <= List.length s)%nat) by (apply NoDup_incl_length; [assumption|]; intros a Ha; now apply Hin). lia.
Qed.


(** The addresses from [lo] to [hi]. *)
Definition of_n (F : family) (x : N) : addr F :=
  match F return addr F with
  | V4 => {| addr_value := x |}
  | V6 => {| top_half := x / 2 ^ 64; bottom_half := x mod 2 ^ 64 |}
  end.
Lemma of_n_spec F x : x < 2 ^ width F -> valid (of_n F x) /\ value (of_n F x) = x.
Proof.
  destruct F; cbn [width of_n valid value addr_value top_half bottom_half]; intros Hx; [auto|].
  split; [split|].
  - apply N.div_lt_upper_bound; [discriminate|]. change (2 ^ 64 * 2 ^ 64) with (2 ^ 128). assumption.
  - now apply N.mod_lt.
  - rewrite N.mul_comm. symmetry. apply N.div_mod'.
Qed.

Lemma number_range {F} lo hi : lo <= hi -> hi < 2 ^ width F ->
  number (fun a : addr F => lo <= value a <= hi) (hi - lo + 1).
Proof.
  intros H1 H2. exists (map (fun j => of_n F (lo + N.of_nat j)) (seq 0 (N.to_nat (hi - lo + 1)))). split; [|split].
  - apply (NoDup_map_inv value). rewrite map_map.
    rewrite (map_ext_in _ (fun j => lo + N.of_nat j)).
    + apply FinFun.Injective_map_NoDup; [|apply seq_NoDup]. intros x y E. lia.
    + intros j Hj. apply in_seq in Hj. apply of_n_spec. lia.
  - intros a. rewrite in_map_iff. split.
    + intros (j & <- & Hj). apply in_seq in Hj. destruct (of_n_spec F (lo + N.of_nat j)) as [Hv ->]; [lia|]. split; [assumption|lia].
    + intros (Va & Ha). exists (N.to_nat (value a - lo)). split.
      * rewrite N2Nat.id. replace (lo + (value a - lo)) with (value a) by lia.
        assert (Hlt : value a < 2 ^ width F) by lia. destruct (of_n_spec F _ Hlt) as [Hv E].
        now apply (value_inj (R := debug_env)).
      * apply in_seq. lia.
  - rewrite map_length, seq_length. lia.
Qed.

Lemma derange_disjoint `{R : Rust} {F} (a b : addr F) l : valid a -> valid b -> range_to_subnets a b = Ret l ->
  N.max (value a) (value b) < 2 ^ width F /\
  Forall (fun n => exists p, is_cidr n p) l /\ disjoint_nets l /\
  forall c, valid c -> (covered l c <-> N.min (value a) (value b) <= value c <= N.max (value a) (value b)).
Proof.
  intros Ha Hb E.
  assert (Hlt : N.max (value a) (value b) < 2 ^ width F).
  { pose proof (value_lt a Ha). pose proof (value_lt b Hb). lia. }
  assert (Ht : N.max (value a) (value b) <> 2 ^ width F - 1) by (apply (c37_returns_iff R F a b Ha Hb); eauto).
  destruct (c35_covers_exactly R F a b Ha Hb) as (l' & E' & Hl & Hc & S); [lia|].
  rewrite E in E'. injection E' as <-. split; [assumption|]. split; [assumption|]. split.
  - eapply disjoint_sorted; [|exact S]. intros n n'. apply ordered_disjoint.
  - intros c Vc. symmetry. now apply Hc.
Qed.

Lemma c79_derange : forall (R : Rust) (F : family) (a b : addr F) (l : list (net F)),
  valid a -> valid b -> range_to_subnets a b = Ret l ->
  sizes l (N.max (value a) (value b) - N.min (value a) (value b) + 1).
Proof.
  intros R F a b l Ha Hb E. destruct (derange_disjoint a b l Ha Hb E) as (Hlt & Hl & Hd & Hc).
  apply (sizes_iff R l _ _ (cidr_wf_list l Hl) Hd Hc). apply number_range; lia.
Qed.

Lemma sizes_same `{R : Rust} {F} (l : list (net F)) (m : addr F) :
  Forall (fun e => wf_net e /\ subnet_mask e = m) l -> sizes l (N.of_nat (List.length l) * 2 ^ host_bits m).
Proof.
  intros Hl. exists (map (fun _ => 2 ^ host_bits m) l). induction Hl as [|n l [Hn Em] Hl [IH1 IH2]]; [split; constructor|].
  cbn [map fold_right List.length]. split.
  - constructor; [|assumption]. destruct (c23_address_count R F n Hn) as [Hc Ea]. rewrite Ea in Hc. rewrite <- Em. exact Hc.
  - rewrite IH2. lia.
Qed.
Lemma sizes_unique {F} (l : list (net F)) k k' : sizes l k -> sizes l k' -> k = k'.
Proof.
  intros (ks & H & <-) (ks' & H' & <-). f_equal. revert ks' H'.
  induction H as [|n x l ks Hn _ IH]; intros ks' H'; inversion H' as [|? y ? ks2 Hn' H2]; subst; [reflexivity|].
  f_equal; [now apply (count_unique n)|now apply IH].
Qed.

Lemma c79_resize : forall (R : Rust) (F : family) (n : net F) (m : addr F) (l : list (net F)) (k : N),
  wf_net n -> valid m -> host_bits m <= host_bits (subnet_mask n) ->
  (exists o, resize_network n m = Ret (l, o)) -> (sizes l k <-> count n k).
Proof.
  intros R F n m l k Hn Vm Hh [o E].
  assert (Hs : sizes l (2 ^ host_bits (subnet_mask n))).
  { destruct (N.lt_ge_cases (host_bits m) (host_bits (subnet_mask n))) as [C|C].
    - destruct (c53_subnets R F n m Hn Vm C) as (l' & E' & Hlen & Hl & _). rewrite E in E'. injection E' as <- _.
      pose proof (sizes_same l m Hl) as H. unfold net in *. rewrite Hlen, <- N.pow_add_r in H.
      replace (host_bits (subnet_mask n) - host_bits m + host_bits m) with (host_bits (subnet_mask n)) in H by lia. exact H.
    - destruct (c54_same_size R F n m Hn Vm) as (n' & E' & Hn' & Em & _); [lia|]. rewrite E in E'. injection E' as -> _.
      pose proof (sizes_same [n'] m) as H. cbn [List.length] in H. change (N.of_nat 1) with 1 in H. rewrite N.mul_1_l in H.
      replace (host_bits (subnet_mask n)) with (host_bits m) by lia. apply H. constructor; [auto|constructor]. }
  assert (Hc : count n (2 ^ host_bits (subnet_mask n))).
  { destruct (c23_address_count R F n Hn) as [Hc Ea]. rewrite Ea in Hc. exact Hc. }
  split; intros H.
  - rewrite (sizes_unique l _ _ H Hs). exact Hc.
  - rewrite (count_unique n _ _ H Hc). exact Hs.
Qed.

Lemma c79_split : forall (R : Rust) (F : family) (n : net F) (cs : list Z) (r : list (net F)),
  wf_net n -> split_subnet n cs = Ret (Some r) -> sizes r (total cs).
Proof.
  intros R F n cs r Hn E. pose proof (c46_one_per_request R F n cs r Hn E) as H. unfold total.
  exists (map (fun c => 2 ^ piece c) cs). split; [|reflexivity]. clear E Hn.
  induction H as [|c m cs r [Hp Hm] _ IH]; cbn [map]; constructor; [|assumption].
  destruct (size_cidr m _ Hm) as [_ Es]. replace (width F - (width F - piece c)) with (piece c) in Es by lia.
  rewrite <- Es. apply count_size, Hm.
Qed.

Lemma c80_minimize : forall (R : Rust) (F : family) (l l' r r' : list (net F)),
  Forall (fun n => exists p, is_cidr n p) l -> Forall (fun n => exists p, is_cidr n p) l' ->
  minimize_subnets l = Ret r -> minimize_subnets l' = Ret r' ->
  ((forall a, valid a -> covered l a -> covered l' a) <-> forall n, In n r -> exists n', In n' r' /\ includes n' n).
Proof.
  intros R F l l' r r' Hl Hl' E E'.
  destruct (min_disjoint l r Hl E) as (Hr & _ & Hc). destruct (min_disjoint l' r' Hl' E') as (Hr' & _ & Hc'). split.
  - intros H n Hn. rewrite Forall_forall in Hr. destruct (Hr n Hn) as [p Hp].
    apply (c42_in_one R F l' r' n p Hl' E' Hp). intros c Vc Hm. apply H; [assumption|]. apply Hc; [assumption|]. now exists n.
  - intros H a Va Ha. apply Hc in Ha; [|assumption]. destruct Ha as (n & Hn & Hm).
    destruct (H n Hn) as (n' & Hn' & Hi). apply Hc'; [assumption|]. exists n'. split; [assumption|]. now apply Hi.
Qed.

Lemma derange_minimal `{R : Rust} {F} (a b : addr F) l : valid a -> valid b -> range_to_subnets a b = Ret l ->
  exists r, minimize_subnets l = Ret r /\ forall n, In n r <-> In n l.
Proof.
  intros Ha Hb E. destruct (derange_disjoint a b l Ha Hb E) as (_ & Hl & _ & Hc).
  destruct (c40_returns R F l (cidr_wf_list l Hl)) as (r & Er & _). exists r. split; [assumption|].
  destruct (min_disjoint l r Hl Er) as (Hr & _ & Hcr).
  assert (P : Permutation l r).
  { apply (c36_unique R F a b l r Ha Hb E Hr).
    - intros c Vc. rewrite <- (Hc c Vc). symmetry. now apply Hcr.
    - apply (c39_not_longer R F l r); [now apply cidr_wf_list|assumption]. }
  intros n. split; apply Permutation_in; [now apply Permutation_sym|assumption].
Qed.

Lemma c80_derange : forall (R : Rust) (F : family) (a b a' b' : addr F) (l l' : list (net F)),
  valid a -> valid b -> valid a' -> valid b' ->
  range_to_subnets a b = Ret l -> range_to_subnets a' b' = Ret l' ->
  (N.min (value a') (value b') <= N.min (value a) (value b) /\ N.max (value a) (value b) <= N.max (value a') (value b') <->
   forall n, In n l -> exists n', In n' l' /\ includes n' n).
Proof.
  intros R F a b a' b' l l' Ha Hb Ha' Hb' E E'.
  destruct (derange_disjoint a b l Ha Hb E) as (_ & Hl & _ & Hc).
  destruct (derange_disjoint a' b' l' Ha' Hb' E') as (_ & Hl' & _ & Hc').
  destruct (derange_minimal a b l Ha Hb E) as (r & Er & Hr). destruct (derange_minimal a' b' l' Ha' Hb' E') as (r' & Er' & Hr').
  transitivity (forall c : addr F, valid c -> covered l c -> covered l' c).
  - split.
    + intros H c Vc. rewrite Hc, Hc' by assumption. lia.
    + intros H. assert (H0 : forall c : addr F, valid c -> N.min (value a) (value b) <= value c <= N.max (value a) (value b) ->
        N.min (value a') (value b') <= value c <= N.max (value a') (value b')).
      { intros c Vc. rewrite <- Hc, <- Hc' by assumption. now apply H. }
      pose proof (H0 a Ha ltac:(lia)). pose proof (H0 b Hb ltac:(lia)). lia.
  - rewrite (c80_minimize R F l l' r r' Hl Hl' Er Er'). split; intros H n Hn.
    + apply Hr in Hn. destruct (H n Hn) as (n' & Hn' & Hi). exists n'. split; [now apply Hr'|assumption].
    + apply Hr in Hn. destruct (H n Hn) as (n' & Hn' & Hi). exists n'. split; [now apply Hr'|assumption].
Qed.

(** *** Splits *)
Lemma piece_mono c c' : (c' <= c)%Z -> piece c' <= piece c.
Proof. intros H. unfold piece. apply N.log2_up_le_mono. lia. Qed.
Lemma total_perm cs cs' : Permutation cs cs' -> total cs = total cs' /\ largest cs = largest cs'.
Proof.
  intros P. unfold total, largest. induction P as [|c cs cs' P IH|c d cs|cs cs' cs'' P1 IH1 P2 IH2]; cbn [map fold_right]; [auto| | |].
  - destruct IH as [-> ->]. auto.
  - split; lia.
  - destruct IH1, IH2. split; congruence.
Qed.
Lemma pow_mono x y : x <= y -> 2 ^ x <= 2 ^ y.
Proof. intros H. apply N.pow_le_mono_r; [discriminate|assumption]. Qed.
Lemma pow_max x y : 2 ^ N.max x y = N.max (2 ^ x) (2 ^ y).
Proof.
  destruct (N.le_ge_cases x y) as [C|C]; pose proof (pow_mono _ _ C).
  - rewrite (N.max_r x y) by assumption. lia.
  - rewrite (N.max_l x y) by assumption. lia.
Qed.
Lemma less_total cs' cs : asks_less cs' cs ->
  largest cs' <= largest cs /\ total cs' + 2 ^ largest cs <= total cs + 2 ^ largest cs'.
Proof.
  intros (kept & dropped & P & H). destruct (total_perm _ _ P) as [-> ->]. clear P.
  unfold total, largest. induction H as [|c' c cs' kept Hc H [IH1 IH2]].
  - cbn [app map fold_right]. split; [lia|]. change (2 ^ 0) with 1. induction dropped as [|c d IH]; [cbn; lia|].
    cbn [map fold_right]. rewrite pow_max. pose proof (pow2_pos (piece c)). lia.
  - cbn [app map fold_right]. pose proof (piece_mono c c' Hc) as Hp. pose proof (pow_mono _ _ Hp) as Hp'.
    pose proof (pow_mono _ _ IH1) as IH1'. split; [lia|]. rewrite !pow_max. lia.
Qed.
Lemma round_mono b j j' : j' <= j -> b - b mod 2 ^ j' + 2 ^ j' <= b - b mod 2 ^ j + 2 ^ j.
Proof.
  intros H. assert (Ej : 2 ^ j = 2 ^ j' * 2 ^ (j - j')) by (rewrite <- N.pow_add_r; f_equal; lia).
  rewrite Ej. pose proof (pow2_pos j') as Hp. pose proof (pow2_pos (j - j')) as Hq. clear Ej.
  revert Hp Hq. generalize (2 ^ j') (2 ^ (j - j')). clear. intros p q Hp Hq.
  pose proof (N.div_mod' b (p * q)) as D. pose proof (N.div_mod' b p) as D'.
  rewrite <- (N.div_div b p q) in D by lia.
  pose proof (N.div_mod' (b / p) q) as E. pose proof (N.mod_lt (b / p) q ltac:(lia)) as M.
  set (y := b / p) in *. set (x := y / q) in *. set (z := y mod q) in *.
  replace (b - b mod p) with (p * y) by lia. replace (b - b mod (p * q)) with (p * q * x) by lia.
  clearbody x y z. clear D D'. subst y.
  replace (p * (q * x + z) + p) with (p * q * x + p * (z + 1)) by lia.
  apply N.add_le_mono_l. apply N.mul_le_mono_l. lia.
Qed.
Lemma less_start {F} (n : net F) cs' cs : asks_less cs' cs ->
  run_start n cs' + total cs' <= run_start n cs + total cs.
Proof.
  intros H. destruct (less_total cs' cs H) as [H1 H2]. unfold run_start.
  pose proof (round_mono (value (base_addr n)) _ _ H1) as K.
  revert K H2. generalize (value (base_addr n) - value (base_addr n) mod 2 ^ largest cs)
    (value (base_addr n) - value (base_addr n) mod 2 ^ largest cs') (2 ^ largest cs) (2 ^ largest cs'). clear. intros. lia.
Qed.

Lemma c80_split : forall (R : Rust) (F : family) (n : net F) (cs cs' : list Z) (r : list (net F)),
  wf_net n -> split_subnet n cs = Ret (Some r) -> asks_less cs' cs ->
  exists r', split_subnet n cs' = Ret (Some r').
Proof.
  intros R F n cs cs' r Hn E Hl. apply c50_succeeds_iff; [assumption|].
  assert (H : run_start n cs + total cs < 2 ^ width F) by (apply (c50_succeeds_iff R F n cs Hn); eauto).
  pose proof (less_start n cs' cs Hl). lia.
Qed.

Lemma c80_split_inside : forall (R : Rust) (F : family) (n : net F) (p : N) (cs cs' : list Z) (r : list (net F)),
  is_cidr n p -> split_subnet n cs = Ret (Some r) -> Forall (includes n) r -> asks_less cs' cs ->
  exists r', split_subnet n cs' = Ret (Some r') /\ Forall (includes n) r'.
Proof.
  intros R F n p cs cs' r Hn E Hi Hl. destruct (c80_split R F n cs cs' r (proj1 Hn) E Hl) as (r' & E').
  exists r'. split; [assumption|]. apply (c49_inside_iff R F n p cs' r' Hn E').
  apply (c49_inside_iff R F n p cs r Hn E) in Hi. destruct (less_total cs' cs Hl) as [H1 H2].
  pose proof (pow_mono _ _ H1). lia.
Qed.
