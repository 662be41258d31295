(** * Pf_Split: proofs for P_Split *)
From Verif Require Import RustBase Addr BitManip Cidr Net Derange Split Console Main Spec SpecIO Bits Weave Bytes Laws NetFacts SetFacts Family Loops Blocks DerangeFacts SplitFacts Order Pf_Net Pf_Derange Demo.
From Coq Require Import ZifyBool ZifyNat ZifyN.
Ltac Zify.zify_post_hook ::= idtac.

Lemma start_run `{R : Rust} {F} (n : net F) cs : wf_net n -> start n cs = run_start n cs.
Proof. intros Hn. unfold start, run_start. rewrite value_v by apply Hn. reflexivity. Qed.

Lemma split_fam_full (R : Rust) (F : family) (n : net F) cs :
  wf_net n ->
  if run_start n cs + total cs <? 2 ^ width F
  then exists r ns, split_subnet n cs = Ret (Some r) /\ Permutation r ns /\
       tiles (run_start n cs) ns (run_start n cs + total cs) /\
       StronglySorted (fun e e' : net F => size e' <= size e) ns /\
       Forall2 (fun c (e : net F) => size e = 2 ^ piece c) cs r /\
       exists cs', StronglySorted (fun c c' => c' <= c)%Z cs' /\ Permutation cs' cs /\
         List.length cs' = List.length ns /\ Permutation (combine cs r) (combine cs' ns)
  else split_subnet n cs = Ret None.
Proof.
  intros Hn. rewrite <- start_run by assumption. rewrite width_W. apply split_spec.
  apply valid_ok. apply Hn.
Qed.

Lemma split_fam (R : Rust) (F : family) (n : net F) cs :
  wf_net n ->
  if run_start n cs + total cs <? 2 ^ width F
  then exists r ns, split_subnet n cs = Ret (Some r) /\ Permutation r ns /\
       tiles (run_start n cs) ns (run_start n cs + total cs) /\
       StronglySorted (fun e e' : net F => size e' <= size e) ns /\
       Forall2 (fun c (e : net F) => size e = 2 ^ piece c) cs r
  else split_subnet n cs = Ret None.
Proof.
  intros Hn. pose proof (split_fam_full R F n cs Hn) as S. destruct (_ <? _); [|exact S].
  destruct S as (r & ns & E & P & Ht & Hs & Hz & _). exists r, ns. auto.
Qed.

Lemma split_some (R : Rust) (F : family) (n : net F) cs r :
  wf_net n -> split_subnet n cs = Ret (Some r) ->
  run_start n cs + total cs < 2 ^ width F /\
  exists ns, Permutation r ns /\
       tiles (run_start n cs) ns (run_start n cs + total cs) /\
       StronglySorted (fun e e' : net F => size e' <= size e) ns /\
       Forall2 (fun c (e : net F) => size e = 2 ^ piece c) cs r.
Proof.
  intros Hn E. pose proof (split_fam R F n cs Hn) as S.
  destruct (N.ltb_spec (run_start n cs + total cs) (2 ^ width F)) as [H|H].
  - destruct S as (r' & ns & E' & X). rewrite E in E'. injection E' as <-. split; [assumption|]. exists ns. exact X.
  - rewrite E in S. discriminate.
Qed.

Lemma c46_returns : forall (R : Rust) (F : family) (n : net F) (cs : list Z),
  wf_net n -> exists o, split_subnet n cs = Ret o.
Proof.
  intros R F n cs Hn. pose proof (split_fam R F n cs Hn) as S. destruct (_ <? _).
  - destruct S as (r & ns & E & _). eauto.
  - eauto.
Qed.

Lemma piece_total cs c : In c cs -> 2 ^ piece c <= total cs.
Proof.
  unfold total. induction cs as [|d cs IH]; [contradiction|]. cbn [map fold_right In].
  intros [->|H]; [lia|]. apply IH in H. lia.
Qed.

Lemma Forall2_In_l {X Y} (P : X -> Y -> Prop) xs ys :
  Forall2 P xs ys -> Forall2 (fun x y => In x xs /\ In y ys /\ P x y) xs ys.
Proof.
  assert (G : forall xs' ys', incl xs xs' -> incl ys ys' -> Forall2 P xs ys -> Forall2 (fun x y => In x xs' /\ In y ys' /\ P x y) xs ys).
  { intros xs' ys' Hx Hy H. induction H as [|x y xs ys Hxy H IH]; constructor.
    - split; [apply Hx; now left|]. split; [apply Hy; now left|assumption].
    - apply IH; intros z Hz; [apply Hx|apply Hy]; now right. }
  apply G; apply incl_refl.
Qed.

Lemma Forall2_imp {X Y} (P Q : X -> Y -> Prop) xs ys :
  (forall x y, P x y -> Q x y) -> Forall2 P xs ys -> Forall2 Q xs ys.
Proof. intros H. induction 1; constructor; auto. Qed.

Lemma c46_one_per_request : forall (R : Rust) (F : family) (n : net F) (cs : list Z) (r : list (net F)),
  wf_net n -> split_subnet n cs = Ret (Some r) ->
  Forall2 (fun c m => piece c < width F /\ is_cidr m (width F - piece c)) cs r.
Proof.
  intros R F n cs r Hn E. destruct (split_some R F n cs r Hn E) as (Hlt & ns & P & Ht & _ & Hz).
  pose proof (tiles_cidr _ _ _ Ht) as Hc. rewrite Forall_forall in Hc.
  apply Forall2_In_l in Hz. eapply Forall2_imp; [|exact Hz]. intros c m (Hcs & Hm & Es).
  assert (Hp : piece c < width F).
  { apply N.lt_nge. intros C. apply piece_total in Hcs.
    assert (2 ^ width F <= 2 ^ piece c) by (apply N.pow_le_mono_r; [discriminate|assumption]). lia. }
  split; [assumption|]. assert (Cm : cidr m) by (apply Hc, (Permutation_in _ P), Hm).
  split; [apply wf_okN, Cm|]. apply cidr_prefix_size; [assumption|]. rewrite <- width_W.
  split; [lia|]. rewrite Es. f_equal. lia.
Qed.

Lemma cidr_same {F} (n n' : net F) p : is_cidr n p -> is_cidr n' p -> value (base_addr n) = value (base_addr n') -> n = n'.
Proof.
  intros [H E] [H' E'] Eb. assert (A1 : base_addr n = base_addr n') by (apply (value_inj (R := debug_env)); [apply H|apply H'|assumption]).
  assert (A2 : subnet_mask n = subnet_mask n').
  { apply (value_inj (R := debug_env)); [apply H|apply H'|].
    apply H in E. apply H' in E'. destruct E as [_ ->], E' as [_ ->]. reflexivity. }
  destruct n, n'. cbn in *. congruence.
Qed.

(** A run of networks, without reference to an environment. *)
Fixpoint run {F} (x : N) (l : list (net F)) : Prop :=
  match l with
  | [] => True
  | n :: l' => exists p, is_cidr n p /\ value (base_addr n) = x /\ run (x + 2 ^ (width F - p)) l'
  end.

Lemma tiles_run `{R : Rust} {F} (l : list (net F)) : forall x y, tiles x l y -> run x l.
Proof.
  induction l as [|n l IH]; intros x y; cbn [tiles run]; [trivial|]. intros (Hn & Eb & Ht).
  destruct (cidr_is_cidr n Hn) as (p & Hp). exists p. split; [assumption|].
  destruct (size_cidr n p Hp) as [_ Es]. rewrite <- value_v by apply Hp. split; [assumption|]. rewrite <- Es. eauto.
Qed.

Lemma run_same {F} (l : list (net F)) : forall l' x, run x l -> run x l' -> map cidr_prefix l = map cidr_prefix l' -> l = l'.
Proof.
  induction l as [|n l IH]; intros [|n' l'] x; cbn [run map]; try discriminate; [reflexivity|].
  intros (p & Hp & Eb & Hr) (p' & Hp' & Eb' & Hr') E.
  assert (p = p') by (destruct Hp as [_ Hp], Hp' as [_ Hp']; congruence). subst p'.
  assert (n = n') by (apply (cidr_same n n' p); [assumption|assumption|congruence]). subst n'.
  f_equal. apply (IH l' (x + 2 ^ (width F - p))); [assumption|assumption|congruence].
Qed.

Definition pre {F} (n : net F) : N := match cidr_prefix n with Some p => p | None => 0 end.

Lemma sorted_perm_eq (l : list N) : forall l', StronglySorted N.le l -> StronglySorted N.le l' -> Permutation l l' -> l = l'.
Proof.
  induction l as [|x l IH]; intros l' S S' P.
  - apply Permutation_nil in P. congruence.
  - destruct l' as [|y l']; [apply Permutation_sym, Permutation_nil in P; discriminate|].
    inversion S as [|? ? S1 F1]; inversion S' as [|? ? S2 F2]; subst. rewrite Forall_forall in F1, F2.
    assert (x = y).
    { assert (Hx : In x (y :: l')) by (apply (Permutation_in _ P); now left).
      assert (Hy : In y (x :: l)) by (apply (Permutation_in _ (Permutation_sym P)); now left).
      destruct Hx as [|Hx]; [congruence|]. destruct Hy as [|Hy]; [congruence|].
      apply F2 in Hx. apply F1 in Hy. lia. }
    subst y. f_equal. apply IH; try assumption. now apply Permutation_cons_inv in P.
Qed.

Lemma pre_prefix {F} (l l' : list (net F)) :
  Forall (fun n => exists p, is_cidr n p) l -> Forall (fun n => exists p, is_cidr n p) l' ->
  map pre l = map pre l' -> map cidr_prefix l = map cidr_prefix l'.
Proof.
  revert l'. induction l as [|n l IH]; intros [|n' l'] H H'; cbn [map]; try discriminate; [reflexivity|].
  inversion H as [|? ? [p [_ Hp]] H1]; inversion H' as [|? ? [p' [_ Hp']] H1']; subst. intros E.
  f_equal; [|apply IH; [assumption|assumption|congruence]]. unfold pre in E. rewrite Hp, Hp' in *. congruence.
Qed.

(** What an environment has no influence on. *)
Lemma split_parts (R : Rust) (F : family) (n : net F) cs :
  wf_net n ->
  (run_start n cs + total cs < 2 ^ width F ->
   exists r ns, split_subnet n cs = Ret (Some r) /\ Permutation r ns /\ run (run_start n cs) ns /\
     Forall (fun n => exists p, is_cidr n p) ns /\ StronglySorted N.le (map pre ns) /\
     map cidr_prefix r = map (fun c => Some (width F - piece c)) cs /\
     exists cs', StronglySorted (fun c c' => c' <= c)%Z cs' /\ Permutation cs' cs /\
       List.length cs' = List.length ns /\ Permutation (combine cs r) (combine cs' ns)) /\
  (2 ^ width F <= run_start n cs + total cs -> split_subnet n cs = Ret None).
Proof.
  intros Hn. pose proof (split_fam_full R F n cs Hn) as S. split; intros Hlt.
  - rewrite (proj2 (N.ltb_lt _ _) Hlt) in S. destruct S as (r & ns & E & P & Ht & Hs & Hz & Ho).
    pose proof (tiles_cidr _ _ _ Ht) as Hc. exists r, ns. split; [assumption|]. split; [assumption|].
    split; [now apply tiles_run in Ht|]. split; [now apply cidr_iff_list|]. split.
    + clear -Hs Hc. induction Hs as [|e ns Hs IH Hf]; cbn [map]; constructor.
      * apply IH. now inversion Hc.
      * inversion Hc as [|? ? He Hc']; subst. apply Forall_map. rewrite Forall_forall in *. intros e' He'.
        specialize (Hf e' He'). cbn beta in Hf. unfold pre.
        destruct (cidr_some e He) as (p & -> & Hp & Ep). destruct (cidr_some e' (Hc' e' He')) as (p' & -> & Hp' & Ep').
        rewrite Ep, Ep' in Hf. apply N.pow_le_mono_r_iff in Hf; lia.
    + split; [|exact Ho]. pose proof (c46_one_per_request R F n cs r Hn E) as H1. clear -H1.
      induction H1 as [|c m cs r [_ [_ Hm]] H1 IH]; cbn [map]; [reflexivity|]. now rewrite Hm, IH.
  - rewrite (proj2 (N.ltb_ge _ _) Hlt) in S. assumption.
Qed.

Lemma desc_perm_eq l : forall l', StronglySorted (fun c c' => c' <= c)%Z l -> StronglySorted (fun c c' => c' <= c)%Z l' -> Permutation l l' -> l = l'.
Proof.
  induction l as [|x l IH]; intros l' S S' P.
  - apply Permutation_nil in P. congruence.
  - destruct l' as [|y l']; [apply Permutation_sym, Permutation_nil in P; discriminate|].
    inversion S as [|? ? S1 F1]; inversion S' as [|? ? S2 F2]; subst. rewrite Forall_forall in F1, F2.
    assert (x = y).
    { assert (Hx : In x (y :: l')) by (apply (Permutation_in _ P); now left).
      assert (Hy : In y (x :: l)) by (apply (Permutation_in _ (Permutation_sym P)); now left).
      destruct Hx as [|Hx]; [congruence|]. destruct Hy as [|Hy]; [congruence|].
      apply F2 in Hx. apply F1 in Hy. lia. }
    subst y. f_equal. apply IH; try assumption. now apply Permutation_cons_inv in P.
Qed.

Lemma combine_functional {X Y} (xs : list X) : forall ys ys' : list Y, NoDup xs ->
  List.length ys = List.length xs -> List.length ys' = List.length xs ->
  Permutation (combine xs ys) (combine xs ys') -> ys = ys'.
Proof.
  induction xs as [|x xs IH]; intros [|y ys] [|y' ys'] Hnd E E' P; try discriminate; [reflexivity|].
  inversion Hnd as [|? ? Hx Hnd']; subst. cbn [combine] in P.
  assert (y = y').
  { assert (In (x, y) ((x, y') :: combine xs ys')) as [C|C] by (apply (Permutation_in _ P); now left); [congruence|].
    apply in_combine_l in C. contradiction. }
  subst y'. f_equal. apply Permutation_cons_inv in P. apply IH; try assumption; cbn [List.length] in *; congruence.
Qed.

Lemma c46_environment : forall (R R' : Rust) (F : family) (n : net F) (cs : list Z),
  wf_net n ->
  match @split_subnet R (addr F) (@addr_ops R F) n cs, @split_subnet R' (addr F) (@addr_ops R' F) n cs with
  | Ret (Some r), Ret (Some r') =>
      Permutation (combine cs r) (combine cs r') /\ (NoDup cs -> r = r')
  | Ret None, Ret None => True
  | _, _ => False
  end.
Proof.
  intros R R' F n cs Hn. destruct (split_parts R F n cs Hn) as [P1 P2]. destruct (split_parts R' F n cs Hn) as [P1' P2'].
  revert P1 P2 P1' P2'.
  generalize (@split_subnet R (addr F) (@addr_ops R F) n cs). generalize (@split_subnet R' (addr F) (@addr_ops R' F) n cs).
  intros o' o P1 P2 P1' P2'. destruct (N.lt_ge_cases (run_start n cs + total cs) (2 ^ width F)) as [H|H].
  - destruct (P1 H) as (r & ns & -> & Pm & Hr & Hc & Hs & Hp & cc & Sc & Pc & Lc & Hcc).
    destruct (P1' H) as (r' & ns' & -> & Pm' & Hr' & Hc' & Hs' & Hp' & cc' & Sc' & Pc' & Lc' & Hcc').
    assert (E : ns = ns').
    { apply (run_same ns ns' _ Hr Hr'). apply pre_prefix; try assumption.
      apply sorted_perm_eq; try assumption.
      rewrite <- (Permutation_map pre Pm), <- (Permutation_map pre Pm').
      replace (map pre r) with (map pre r'); [reflexivity|].
      transitivity (map (fun o : option N => match o with Some p => p | None => 0 end) (map cidr_prefix r')).
      + rewrite map_map. reflexivity.
      + rewrite Hp', <- Hp, map_map. reflexivity. }
    assert (cc = cc') by (apply desc_perm_eq; [assumption..|]; now rewrite Pc, Pc').
    assert (P : Permutation (combine cs r) (combine cs r')) by (rewrite Hcc, Hcc'; subst; reflexivity).
    split; [exact P|]. intros Hnd. apply (combine_functional cs); try assumption.
    + apply (f_equal (@List.length _)) in Hp. now rewrite !map_length in Hp.
    + apply (f_equal (@List.length _)) in Hp'. now rewrite !map_length in Hp'.
  - rewrite (P2 H), (P2' H). exact Logic.I.
Qed.

Lemma nth_combine {X Y} (xs : list X) : forall (ys : list Y) i x y,
  nth_error xs i = Some x -> nth_error ys i = Some y -> In (x, y) (combine xs ys).
Proof.
  induction xs as [|x0 xs IH]; intros [|y0 ys] [|i] x y; cbn [nth_error combine]; try discriminate.
  - intros [= ->] [= ->]. now left.
  - intros H1 H2. right. eapply IH; eassumption.
Qed.

Lemma c48_larger_first : forall (R : Rust) (F : family) (n : net F) (cs : list Z) (r : list (net F)) (i j : nat)
    (c c' : Z) (m m' : net F),
  wf_net n -> split_subnet n cs = Ret (Some r) ->
  nth_error cs i = Some c -> nth_error r i = Some m ->
  nth_error cs j = Some c' -> nth_error r j = Some m' ->
  (c' < c)%Z -> value (base_addr m) < value (base_addr m').
Proof.
  intros R F n cs r i j c c' m m' Hn E Hc Hm Hc' Hm' Hlt.
  pose proof (split_fam_full R F n cs Hn) as S. destruct (_ <? _); [|congruence].
  destruct S as (r0 & ns & E0 & P & Ht & _ & _ & cc & Sc & _ & _ & Pc). rewrite E in E0. injection E0 as <-.
  assert (H1 : In (c, m) (combine cc ns)) by (apply (Permutation_in _ Pc); eapply nth_combine; eassumption).
  assert (H2 : In (c', m') (combine cc ns)) by (apply (Permutation_in _ Pc); eapply nth_combine; eassumption).
  assert (V : forall a : net F, In a ns -> v (base_addr a) = value (base_addr a)).
  { intros a Ha. apply value_v, valid_ok. apply tiles_cidr in Ht. rewrite Forall_forall in Ht. apply okN_base, (proj1 (Ht a Ha)). }
  rewrite <- !V by (eapply in_combine_r; eassumption). clear -Sc Ht H1 H2 Hlt.
  revert ns Ht H1 H2. generalize (run_start n cs) at 1. induction Sc as [|c0 cc Sc IH Hf]; intros x [|n0 ns]; cbn [combine tiles In]; try contradiction.
  intros (Hn0 & Eb & Ht) [H1|H1] [H2|H2].
  - assert (c = c') by congruence. lia.
  - injection H1 as <- <-. apply in_combine_r in H2. destruct (tiles_bounds _ _ _ _ Ht H2) as [B _]. pose proof (size_pos n0). lia.
  - injection H2 as <- <-. apply in_combine_l in H1. rewrite Forall_forall in Hf. specialize (Hf c H1). cbn beta in Hf. lia.
  - eapply IH; eassumption.
Qed.

Lemma c47_piece : forall (c : Z) (j : N),
  piece c <= j <-> (c <= 2 ^ Z.of_N j - 2)%Z.
Proof.
  intros c j. rewrite <- piece_spec. rewrite N2Z.inj_pow. reflexivity.
Qed.

Lemma c47_smallest : forall (R : Rust) (F : family) (n : net F) (cs : list Z) (r : list (net F)),
  wf_net n -> split_subnet n cs = Ret (Some r) ->
  Forall2 (fun c m => exists k, count m k /\ (c <= Z.of_N k - 2)%Z /\
             forall (m' : net F) (p' k' : N), is_cidr m' p' -> count m' k' -> (c <= Z.of_N k' - 2)%Z -> k <= k') cs r.
Proof.
  intros R F n cs r Hn E. pose proof (c46_one_per_request R F n cs r Hn E) as H.
  eapply Forall2_imp; [|exact H]. intros c m (Hp & Hm).
  destruct (size_cidr m _ Hm) as [_ Es]. exists (size m). split; [apply count_size, Hm|].
  replace (width F - (width F - piece c)) with (piece c) in Es by lia. rewrite Es.
  split; [now apply piece_spec|]. intros m' p' k' Hm' Hk' Hc.
  rewrite (count_unique m' k' _ Hk' (count_size m' (proj1 Hm'))) in *.
  destruct (size_cidr m' _ Hm') as [_ Es']. rewrite Es' in *. apply piece_spec in Hc.
  apply N.pow_le_mono_r; [discriminate|assumption].
Qed.

Lemma FOP_perm {X} (P : X -> X -> Prop) l l' :
  (forall x y, P x y -> P y x) -> Permutation l l' -> ForallOrdPairs P l -> ForallOrdPairs P l'.
Proof.
  intros Hs. induction 1 as [|x l l' Pm IH|x y l|l1 l2 l3 P1 IH1 P2 IH2]; intros H.
  - assumption.
  - inversion H as [|? ? Hf Hp]; subst. constructor; [|auto]. rewrite Forall_forall in *.
    intros z Hz. apply Hf. apply (Permutation_in _ (Permutation_sym Pm) Hz).
  - inversion H as [|? ? Hf Hp]; subst. inversion Hp as [|? ? Hf' Hp']; subst. inversion Hf; subst.
    constructor; [constructor; [auto|assumption]|]. constructor; assumption.
  - auto.
Qed.

Lemma share_sym {F} (n n' : net F) : share n n' -> share n' n.
Proof. intros (a & Ha & H1 & H2). exists a. auto. Qed.

Lemma disjoint_perm {F} (l l' : list (net F)) : Permutation l l' -> disjoint_nets l -> disjoint_nets l'.
Proof. apply FOP_perm. intros x y H C. apply H. now apply share_sym. Qed.

Lemma tiles_disjoint `{R : Rust} {F} (l : list (net F)) : forall x y, tiles x l y -> disjoint_nets l.
Proof.
  intros x y Ht. pose proof (tiles_cidr _ _ _ Ht) as Hc. pose proof (tiles_sorted _ _ _ Ht) as Hs. clear Ht.
  induction Hs as [|n l Hs IH Hf]; constructor; [|apply IH; now inversion Hc].
  inversion Hc as [|? ? Hn Hc']; subst. rewrite Forall_forall in *. intros n' Hn' (a & Va & M & M').
  apply member_cidr in M; [|assumption|assumption]. apply member_cidr in M'; [|now apply Hc'|assumption].
  apply mem_interval in M; [|assumption]. apply mem_interval in M'; [|now apply Hc']. specialize (Hf n' Hn'). lia.
Qed.

Lemma tiles_member `{R : Rust} {F} (l : list (net F)) x y a :
  tiles x l y -> valid a -> ((exists m, In m l /\ member m a) <-> x <= value a < y).
Proof.
  intros Ht Va. pose proof (tiles_cidr _ _ _ Ht) as Hc. rewrite Forall_forall in Hc.
  pose proof (tiles_mem _ _ _ a Ht) as M. rewrite value_v in M by assumption. rewrite M.
  split; intros (m & Hm & H); exists m; (split; [assumption|]); apply member_cidr; auto.
Qed.

Lemma perm_member {F} (l l' : list (net F)) a : Permutation l l' ->
  ((exists m, In m l /\ member m a) <-> exists m, In m l' /\ member m a).
Proof.
  intros P. split; intros (m & Hm & H); exists m; (split; [|assumption]).
  - apply (Permutation_in _ P Hm).
  - apply (Permutation_in _ (Permutation_sym P) Hm).
Qed.

Lemma c48_disjoint_run : forall (R : Rust) (F : family) (n : net F) (cs : list Z) (r : list (net F)),
  wf_net n -> split_subnet n cs = Ret (Some r) ->
  disjoint_nets r /\
  forall a : addr F, valid a ->
    ((exists m, In m r /\ member m a) <-> run_start n cs <= value a < run_start n cs + total cs).
Proof.
  intros R F n cs r Hn E. destruct (split_some R F n cs r Hn E) as (Hlt & ns & P & Ht & _ & Hz). split.
  - apply (disjoint_perm ns r); [now symmetry|]. now apply tiles_disjoint in Ht.
  - intros a Va. rewrite (perm_member r ns a P). now apply tiles_member.
Qed.

Lemma base_aligned {F} (n : net F) p : is_cidr n p -> value (base_addr n) mod 2 ^ (width F - p) = 0 /\
  value (base_addr n) + 2 ^ (width F - p) <= 2 ^ width F /\ p <= width F.
Proof.
  intros Hn. destruct (is_cidr_cidr (R := debug_env) n p Hn) as [Hc _].
  destruct (size_cidr (R := debug_env) n p Hn) as [Hp <-].
  rewrite <- (value_v (R := debug_env)) by apply Hn. split; [now apply aligned|]. split; [|assumption].
  rewrite (width_W (R := debug_env)). now apply interval_top.
Qed.

Lemma c48_starts_at_base : forall (F : family) (n : net F) (p : N) (cs : list Z),
  is_cidr n p -> (largest cs <= width F - p -> run_start n cs = value (base_addr n)) /\
  (run_start n cs <= value (base_addr n) /\ (cs <> [] -> value (base_addr n) < run_start n cs + total cs)).
Proof.
  intros F n p cs Hn. destruct (base_aligned n p Hn) as (Al & Top & Hp). unfold run_start. split; [|split].
  - intros Hl. rewrite (mod_pow_le _ _ _ Hl Al). apply N.sub_0_r.
  - apply N.le_sub_l.
  - intros Hne. pose proof (largest_total cs Hne). pose proof (N.mod_lt (value (base_addr n)) (2 ^ largest cs) ltac:(apply N.pow_nonzero; discriminate)).
    revert H H0. generalize (value (base_addr n) mod 2 ^ largest cs). generalize (2 ^ largest cs). intros; lia.
Qed.

Lemma fits_start {F} (n : net F) p cs : is_cidr n p -> total cs <= 2 ^ (width F - p) -> run_start n cs = value (base_addr n).
Proof.
  intros Hn Ht. apply (c48_starts_at_base F n p cs Hn). destruct cs as [|c cs]; [apply N.le_0_l|].
  pose proof (largest_total (c :: cs) ltac:(discriminate)) as H.
  apply (N.pow_le_mono_r_iff 2); [lia|]. lia.
Qed.

Lemma c49_inside_iff : forall (R : Rust) (F : family) (n : net F) (p : N) (cs : list Z) (r : list (net F)),
  is_cidr n p -> split_subnet n cs = Ret (Some r) ->
  (Forall (includes n) r <-> total cs <= 2 ^ (width F - p)).
Proof.
  intros R F n p cs r Hn E. destruct (split_some R F n cs r (proj1 Hn) E) as (Hlt & _).
  destruct (c48_disjoint_run R F n cs r (proj1 Hn) E) as [_ Run]. destruct (base_aligned n p Hn) as (_ & Top & _).
  rewrite Forall_forall. split.
  - intros Hi. destruct (N.eq_0_gt_0_cases (total cs)) as [->|Hpos]; [apply N.le_0_l|].
    assert (G : forall x, run_start n cs <= x < run_start n cs + total cs ->
                value (base_addr n) <= x < value (base_addr n) + 2 ^ (width F - p)).
    { intros x Hx. destruct (value_surj (F := F) x) as (a & Va & <-); [lia|].
      apply Run in Hx; [|assumption]. destruct Hx as (m & Hm & Ha).
      rewrite <- (member_interval n p a Hn Va). now apply (Hi m Hm). }
    pose proof (G (run_start n cs) ltac:(lia)). pose proof (G (run_start n cs + total cs - 1) ltac:(lia)). lia.
  - intros Ht m Hm a Va Ha. rewrite (member_interval n p a Hn Va).
    assert (X : run_start n cs <= value a < run_start n cs + total cs) by (apply Run; eauto).
    rewrite (fits_start n p cs Hn Ht) in X. lia.
Qed.

Lemma wf_new (a m : addr V4) : valid a -> valid m -> wf_net (@new_with_mask (addr V4) ipv4_ops a m).
Proof. intros Ha Hm. apply (wf_okN (R := debug_env) (F := V4)). apply (okN_with_mask (A := addr V4)); assumption. Qed.

Lemma c49_always_inside_refuted : exists (n : net V4) (cs : list Z) (r : list (net V4)) (m : net V4) (a : addr V4),
  is_cidr n 24 /\ @split_subnet debug_env (addr V4) ipv4_ops n cs = Ret (Some r) /\
  In m r /\ valid a /\ member m a /\ ~ member n a.
Proof.
  set (n := @new_with_mask (addr V4) ipv4_ops (ip4 10 0 0 0) (ip4 255 255 255 0)).
  assert (Hn : is_cidr n 24) by (split; [apply wf_new; reflexivity|reflexivity]).
  exists n, [300%Z].
  set (m := @new_with_mask (addr V4) ipv4_ops (ip4 10 0 0 0) (ip4 255 255 254 0)).
  assert (Hm : is_cidr m 23) by (split; [apply wf_new; reflexivity|reflexivity]).
  exists [m], m, (ip4 10 0 1 0). split; [assumption|]. split; [vm_compute; reflexivity|].
  split; [now left|]. split; [reflexivity|].
  rewrite (member_interval (R := debug_env) m 23) by (assumption || reflexivity).
  rewrite (member_interval (R := debug_env) n 24) by (assumption || reflexivity).
  split; [vm_compute; split; [discriminate|reflexivity]|]. vm_compute. intros [_ C]. discriminate.
Qed.

Lemma c50_succeeds_iff : forall (R : Rust) (F : family) (n : net F) (cs : list Z),
  wf_net n ->
  ((exists r, split_subnet n cs = Ret (Some r)) <-> run_start n cs + total cs < 2 ^ width F).
Proof.
  intros R F n cs Hn. split.
  - intros [r E]. apply (split_some R F n cs r Hn E).
  - intros H. destruct (split_parts R F n cs Hn) as [P _]. destruct (P H) as (r & _ & E & _). eauto.
Qed.

Lemma NoDup_app_intro {X} (l l' : list X) :
  NoDup l -> NoDup l' -> (forall x, In x l -> In x l' -> False) -> NoDup (l ++ l').
Proof.
  induction 1 as [|x l Hx Hnd IH]; intros Hnd' Hd; cbn [app]; [assumption|]. constructor.
  - rewrite in_app_iff. intros [C|C]; [contradiction|]. apply (Hd x); [now left|assumption].
  - apply IH; [assumption|]. intros y Hy. apply Hd. now right.
Qed.

(** Disjoint networks inside a network have at most as many addresses. *)
Lemma disjoint_sum {F} (n : net F) K l ks :
  count n K -> Forall2 count l ks -> disjoint_nets l -> Forall (includes n) l ->
  fold_right N.add 0 ks <= K.
Proof.
  intros (L & Hnd & HL & <-) Hk Hd Hi.
  assert (G : exists M, NoDup M /\ (forall a, In a M -> valid a /\ exists m, In m l /\ member m a) /\ N.of_nat (List.length M) = fold_right N.add 0 ks).
  { clear Hi. induction Hk as [|m k l ks (Lm & Hm1 & Hm2 & Hm3) Hk IH].
    - exists []. split; [constructor|]. split; [intros a []|reflexivity].
    - inversion Hd as [|? ? Hf Hd']; subst. destruct (IH Hd') as (M & M1 & M2 & M3). exists (Lm ++ M).
      split; [|split].
      + apply NoDup_app_intro; try assumption. intros a Ha Ha'. apply Hm2 in Ha. destruct Ha as [Va Ha].
        destruct (M2 a Ha') as (_ & m' & Hm' & Hma). rewrite Forall_forall in Hf. apply (Hf m' Hm'). exists a. auto.
      + intros a Ha. apply in_app_or in Ha. destruct Ha as [Ha|Ha].
        * apply Hm2 in Ha. destruct Ha. split; [assumption|]. exists m. split; [now left|assumption].
        * destruct (M2 a Ha) as (Va & m' & Hm' & Hma). split; [assumption|]. exists m'. split; [now right|assumption].
      + rewrite app_length. cbn [fold_right]. lia. }
  destruct G as (M & M1 & M2 & <-). assert (List.length M <= List.length L)%nat; [|lia].
  apply NoDup_incl_length; [assumption|]. intros a Ha. destruct (M2 a Ha) as (Va & m & Hm & Hma).
  apply HL. split; [assumption|]. rewrite Forall_forall in Hi. now apply (Hi m Hm).
Qed.

Lemma needs_total (R : Rust) {F} cs (l : list (net F)) :
  Forall2 (fun c m => exists q k, is_cidr m q /\ count m k /\ (c <= Z.of_N k - 2)%Z) cs l ->
  exists ks, Forall2 count l ks /\ total cs <= fold_right N.add 0 ks.
Proof.
  induction 1 as [|c m cs l (q & k & Hm & Hk & Hc) H (ks & IH1 & IH2)].
  - exists []. split; [constructor|apply N.le_refl].
  - exists (k :: ks). split; [constructor; assumption|]. unfold total in *. cbn [map fold_right].
    assert (2 ^ piece c <= k); [|lia].
    rewrite (count_unique m k _ Hk (count_size m (proj1 Hm))) in *.
    destruct (size_cidr m q Hm) as [_ Es]. rewrite Es in *. apply piece_spec in Hc.
    apply N.pow_le_mono_r; [discriminate|assumption].
Qed.

Lemma c50_finds_fit : forall (R : Rust) (F : family) (n : net F) (p : N) (cs : list Z) (l : list (net F)),
  is_cidr n p ->
  Forall2 (fun c m => exists q k, is_cidr m q /\ count m k /\ (c <= Z.of_N k - 2)%Z) cs l ->
  disjoint_nets l -> Forall (includes n) l ->
  (exists r, split_subnet n cs = Ret (Some r) /\ Forall (includes n) r) \/
  (split_subnet n cs = Ret None /\ value (base_addr n) + total cs = 2 ^ width F /\ total cs = 2 ^ (width F - p)).
Proof.
  intros R F n p cs l Hn Hl Hd Hi. destruct (needs_total R cs l Hl) as (ks & Hk & Hks).
  pose proof (disjoint_sum n _ l ks (count_size n (proj1 Hn)) Hk Hd Hi) as Hsum.
  destruct (size_cidr n p Hn) as [_ Es]. rewrite Es in Hsum.
  assert (Hfit : total cs <= 2 ^ (width F - p)) by lia.
  pose proof (fits_start n p cs Hn Hfit) as Est. destruct (base_aligned n p Hn) as (_ & Top & _).
  destruct (split_parts R F n cs (proj1 Hn)) as [P1 P2].
  destruct (N.lt_ge_cases (run_start n cs + total cs) (2 ^ width F)) as [H|H].
  - left. destruct (P1 H) as (r & _ & E & _). exists r. split; [assumption|].
    now apply (c49_inside_iff R F n p cs r Hn E).
  - right. split; [now apply P2|]. rewrite Est in H. lia.
Qed.

Lemma c50_top_refuted : exists (n : net V4) (cs : list Z) (l : list (net V4)),
  is_cidr n 24 /\
  Forall2 (fun c m => exists q k, is_cidr m q /\ count m k /\ (c <= Z.of_N k - 2)%Z) cs l /\
  disjoint_nets l /\ Forall (includes n) l /\
  @split_subnet debug_env (addr V4) ipv4_ops n cs = Ret None.
Proof.
  set (n := @new_with_mask (addr V4) ipv4_ops (ip4 255 255 255 0) (ip4 255 255 255 0)).
  assert (Hn : is_cidr n 24) by (split; [apply wf_new; reflexivity|reflexivity]).
  exists n, [254%Z], [n]. split; [assumption|]. split; [|split; [|split]].
  - constructor; [|constructor]. exists 24, (size (I := addr_ops (H := debug_env) V4) n). split; [assumption|].
    split; [apply (count_size (R := debug_env)), Hn|]. vm_compute. discriminate.
  - constructor; constructor.
  - constructor; [|constructor]. intros a _ H. exact H.
  - vm_compute. reflexivity.
Qed.

(** ** Output *)
Lemma io_bind_ret {T U} (m : io T) x (f : T -> io U) :
  snd m = Ret x -> io_bind m f = (fst m ++ fst (f x), snd (f x)).
Proof. intros E. unfold io_bind. now rewrite E. Qed.

Lemma io_bind_pair {T U} ev (x : T) (f : T -> io U) :
  io_bind (ev, Ret x) f = (ev ++ fst (f x), snd (f x)).
Proof. reflexivity. Qed.

Lemma io_println {U} s (k : io U) : println s ;;; k = (line s :: fst k, snd k).
Proof. reflexivity. Qed.

Lemma io_lift_ret {T U} (x : T) (f : T -> io U) : io_bind (io_lift (Ret x)) f = f x.
Proof. unfold io_bind, io_lift. cbn [fst snd app]. now destruct (f x). Qed.

Lemma io_for_prints {T} (l : list T) (body : T -> io unit) :
  (forall x, snd (body x) = Ret tt) ->
  io_for l body = (flat_map (fun x => fst (body x)) l, Ret tt).
Proof.
  intros H. induction l as [|x l IH]; cbn [io_for flat_map]; [reflexivity|].
  rewrite (io_bind_ret _ tt) by apply H. now rewrite IH.
Qed.

Lemma io_for_events {T} (l : list T) (body : T -> io unit) (g : T -> list event) :
  (forall x, In x l -> body x = (g x, Ret tt)) -> io_for l body = (flat_map g l, Ret tt).
Proof.
  intros H. induction l as [|x l IH]; cbn [io_for flat_map]; [reflexivity|].
  rewrite H by now left. rewrite IH; [reflexivity|]. intros y Hy. apply H. now right.
Qed.

Lemma map_res_spec {T U} (f : T -> res U) (P : T -> U -> Prop) l :
  Forall (fun x => exists y, f x = Ret y /\ P x y) l -> exists ys, map_res f l = Ret ys /\ Forall2 P l ys.
Proof.
  induction 1 as [|x l (y & Ey & Hy) H (ys & E & IH)]; cbn [map_res].
  - exists []. split; [reflexivity|constructor].
  - rewrite Ey. cbn [bind]. rewrite E. cbn [bind]. exists (y :: ys). split; [reflexivity|constructor; assumption].
Qed.

Lemma max_addr_spec `{R : Rust} {F} (l : list (addr F)) y :
  (exists a, In a l /\ value a = y) -> (forall a, In a l -> valid a /\ value a <= y) ->
  exists a, max_addr l = Some a /\ valid a /\ value a = y.
Proof.
  destruct l as [|x l]; [intros (a & [] & _)|]. intros Hex Hall. cbn [max_addr].
  assert (G : forall (l : list (addr F)) (x : addr F), (forall a : addr F, In a (x :: l) -> valid a) -> valid (fold_left amax l x) /\
            value x <= value (fold_left amax l x) /\
            (forall a, In a l -> value a <= value (fold_left amax l x)) /\ In (fold_left amax l x) (x :: l)).
  { clear. induction l as [|z l IH]; intros x Hv; cbn [fold_left].
    - split; [apply Hv; now left|]. split; [lia|]. split; [intros a []|now left].
    - assert (Vx : valid x) by (apply Hv; now left). assert (Vz : valid z) by (apply Hv; right; now left).
      assert (Ox : okA x) by now apply valid_ok. assert (Oz : okA z) by now apply valid_ok.
      destruct (amax_v x z Ox Oz) as [O E]. apply valid_ok in O.
      rewrite !value_v in E by assumption.
      destruct (IH (amax x z)) as (H1 & H2 & H3 & H4).
      { intros a [<-|Ha]; [assumption|]. apply Hv. right. now right. }
      split; [assumption|]. rewrite E in H2. split; [lia|]. split.
      + intros a [<-|Ha]; [lia|]. now apply H3.
      + destruct H4 as [H4|H4]; [|right; now right]. rewrite <- H4.
        unfold amax. destruct (acmp x z); [right; now left|right; now left|now left]. }
  destruct (G l x) as (H1 & H2 & H3 & H4); [intros a Ha; now apply Hall|].
  exists (fold_left amax l x). split; [reflexivity|]. split; [assumption|].
  destruct Hex as (a & Ha & <-). apply N.le_antisymm; [now apply Hall|].
  destruct Ha as [<-|Ha]; [assumption|now apply H3].
Qed.

Lemma tiles_last `{R : Rust} {F} (l : list (net F)) : forall x y, tiles x l y -> l <> [] ->
  exists n, In n l /\ v (base_addr n) + size n = y.
Proof.
  induction l as [|n l IH]; intros x y; [congruence|]. cbn [tiles]. intros (Hn & Eb & Ht) _.
  destruct l as [|n' l'].
  - cbn [tiles] in Ht. exists n. split; [now left|]. congruence.
  - destruct (IH _ _ Ht ltac:(discriminate)) as (e & He & E). exists e. split; [now right|assumption].
Qed.

Lemma output_general (R : Rust) (T : Terminal) (F : family) (n : net F) (cs : list Z) (r : list (net F)) (la : addr F)
    (out : net F -> option (addr F) -> io unit) :
  wf_net n -> cs <> [] -> prints out -> split_subnet n cs = Ret (Some r) -> highest n la ->
  let y := run_start n cs + total cs in
  y < 2 ^ width F /\
  exists mu nx : addr F, valid mu /\ value mu + 1 = y /\ valid nx /\ value nx = y /\
    output_split n cs out =
      if contains n mu
      then (split_report out n cs r ++ line (lit "Unused networks:") ::
            match range_to_subnets nx la with Ret us => map (fun u => line (net_display u)) us | _ => [] end,
            match range_to_subnets nx la with Ret us => Ret 0%Z | Panic => Panic | Diverge => Diverge end)
      else (split_report out n cs r ++ [line (lit "Network is too small")], Ret 0%Z).
Proof.
  intros Hn Hne Hp E Hla y. destruct (split_some R F n cs r Hn E) as (Hlt & ns & Pm & Ht & _ & Hz).
  fold y in Hlt, Ht. split; [exact Hlt|].
  assert (Hend : 0 < y) by (pose proof (largest_total cs Hne); pose proof (pow2_pos (largest cs)); unfold y; lia).
  pose proof (tiles_cidr _ _ _ Ht) as Hc.
  assert (Hcr : Forall cidr r).
  { rewrite Forall_forall in *. intros m Hm. apply Hc. apply (Permutation_in _ Pm Hm). }
  destruct (map_res_spec last_addr_of_subnet (fun m a => okA a /\ v a = v (base_addr m) + size m - 1) r) as (lasts & El & Hl).
  { rewrite Forall_forall in *. intros m Hm. specialize (Hcr m Hm). destruct (last_addr_spec m (proj1 Hcr)) as (a & Ea & _).
    exists a. split; [assumption|]. now apply last_addr_value. }
  assert (Hns : ns <> []).
  { intros ->. apply Permutation_sym, Permutation_nil in Pm. subst r. inversion Hz; subst. congruence. }
  destruct (max_addr_spec lasts (y - 1)) as (mu & Em & Vmu & Emu).
  { destruct (tiles_last ns _ _ Ht Hns) as (m & Hm & Ey). apply (Permutation_in _ (Permutation_sym Pm)) in Hm.
    clear -Hl Hm Ey. induction Hl as [|m' a r lasts (Oa & Ea) Hl IH]; [contradiction|].
    destruct Hm as [->|Hm].
    - exists a. split; [now left|]. rewrite <- value_v by now apply valid_ok. congruence.
    - destruct (IH Hm) as (b & Hb & Eb). exists b. split; [now right|assumption]. }
  { intros a Ha. assert (X : exists m, In m r /\ okA a /\ v a = v (base_addr m) + size m - 1).
    { clear -Hl Ha. induction Hl as [|m b r lasts (Ob & Eb) Hl IH]; [contradiction|]. destruct Ha as [<-|Ha].
      - exists m. split; [now left|auto].
      - destruct (IH Ha) as (m' & Hm' & X). exists m'. split; [now right|assumption]. }
    destruct X as (m & Hm & Oa & Ea). apply valid_ok in Oa. split; [assumption|]. rewrite <- value_v by assumption.
    destruct (tiles_bounds _ _ _ m Ht (Permutation_in _ Pm Hm)). lia. }
  assert (Omu : okA mu) by now apply valid_ok.
  destruct (add_offset_1 mu Omu) as [(_ & nx & Enx & Onx & Vnx)|[Hov _]].
  2:{ exfalso. rewrite <- width_W, value_v in Hov by assumption. lia. }
  apply valid_ok in Onx. rewrite !value_v in Vnx by assumption.
  destruct (c25_last_addr R F n Hn) as (la' & Ela & Hla').
  rewrite (highest_unique n la' la Hla' Hla) in Ela.
  exists mu, nx. split; [assumption|]. split; [lia|]. split; [assumption|]. split; [lia|].
  unfold output_split. rewrite E.
  rewrite io_println. rewrite (io_bind_ret (out n None) tt) by (apply Hp; [apply Hn|discriminate]). rewrite io_println. rewrite io_lift_ret.
  rewrite (io_for_events (combine cs r) _
    (fun cm : Z * net F => [line (lit "Subnet for " ++ fmt_Z (fst cm) ++ lit " hosts:")] ++
                      fst (out (snd cm) None) ++ [line []])).
  2:{ intros [c m] Hcm. rewrite io_println, (io_bind_ret (out m None) tt); [reflexivity|].
      apply Hp; [|discriminate]. apply in_combine_r in Hcm. rewrite Forall_forall in Hcr. apply wf_okN. now apply Hcr. }
  rewrite io_bind_pair. rewrite El, io_lift_ret, Em. cbn [unwrap]. rewrite io_lift_ret.
  unfold split_report. cbn [fst snd]. destruct (contains n mu); cbn [negb].
  - rewrite Enx, io_lift_ret, io_println, Ela, io_lift_ret.
    unfold print_nets. destruct (range_to_subnets nx la) as [us| |].
    + rewrite io_lift_ret, io_for_prints by reflexivity. unfold io_bind, io_ret. cbn [fst snd app].
      rewrite app_nil_r, <- !app_assoc. reflexivity.
    + cbn [io_bind io_lift fst snd app]. now rewrite <- !app_assoc.
    + cbn [io_bind io_lift fst snd app]. now rewrite <- !app_assoc.
  - rewrite io_println. cbn [fst snd io_ret app]. now rewrite <- !app_assoc.
Qed.

Lemma output_spec (R : Rust) (T : Terminal) (F : family) (n : net F) (p : N) (cs : list Z) (r : list (net F))
    (out : net F -> option (addr F) -> io unit) :
  is_cidr n p -> cs <> [] -> prints out -> split_subnet n cs = Ret (Some r) ->
  let y := run_start n cs + total cs in
  let e := value (base_addr n) + 2 ^ (width F - p) in
  exists nx la : addr F, valid nx /\ valid la /\ value nx = y /\ value la = e - 1 /\
    output_split n cs out =
      if y <=? e
      then (split_report out n cs r ++ line (lit "Unused networks:") ::
            match range_to_subnets nx la with Ret us => map (fun u => line (net_display u)) us | _ => [] end,
            match range_to_subnets nx la with Ret us => Ret 0%Z | Panic => Panic | Diverge => Diverge end)
      else (split_report out n cs r ++ [line (lit "Network is too small")], Ret 0%Z).
Proof.
  intros Hn Hne Hp E y e.
  destruct (c48_starts_at_base F n p cs Hn) as (_ & Hst & Hend). specialize (Hend Hne). fold y in Hend.
  destruct (c25_last_addr R F n (proj1 Hn)) as (la & Ela & Hla).
  destruct (output_general R T F n cs r la out (proj1 Hn) Hne Hp E Hla) as (Hlt & mu & nx & Vmu & Emu & Vnx & Enx & Eo).
  fold y in Hlt, Emu, Enx.
  destruct (is_cidr_cidr n p Hn) as [Cn _]. destruct (size_cidr n p Hn) as [_ Esn].
  destruct (last_addr_value n la Cn Ela) as [Ola Vla].
  rewrite Esn in Vla. apply valid_ok in Ola. rewrite !value_v in Vla by (assumption || apply Hn). fold e in Vla.
  exists nx, la. split; [assumption|]. split; [assumption|]. split; [assumption|]. split; [assumption|].
  assert (Ct : contains n mu = (y <=? e)).
  { pose proof (c19_contains_cidr R F n p mu Hn Vmu) as C. fold e in C.
    destruct (N.leb_spec y e) as [H|H].
    - apply C. lia.
    - destruct (contains n mu); [|reflexivity]. exfalso. assert (X := proj1 C eq_refl). lia. }
  rewrite <- Ct. exact Eo.
Qed.

Lemma range_tiles (R : Rust) (F : family) (a b : addr F) :
  valid a -> valid b -> N.max (value a) (value b) + 1 < 2 ^ width F ->
  exists l, range_to_subnets a b = Ret l /\
    tiles (N.min (value a) (value b)) l (N.max (value a) (value b) + 1).
Proof.
  intros Ha Hb H. pose proof (derange_value R F a b Ha Hb) as D. cbv zeta in D.
  rewrite (proj2 (N.ltb_lt _ _) H) in D. destruct D as (l & E & Ht & _); [now right|]. eauto.
Qed.

Lemma c51_unused : forall (R : Rust) (T : Terminal) (F : family) (n : net F) (p : N) (cs : list Z) (r : list (net F))
    (out : net F -> option (addr F) -> io unit),
  is_cidr n p -> cs <> [] -> prints out -> split_subnet n cs = Ret (Some r) ->
  total cs < 2 ^ (width F - p) -> value (base_addr n) + 2 ^ (width F - p) < 2 ^ width F ->
  exists us, output_split n cs out =
    (split_report out n cs r ++ [line (lit "Unused networks:")] ++ map (fun u => line (net_display u)) us, Ret 0%Z) /\
    Forall (fun u => exists q, is_cidr u q) us /\
    disjoint_nets (r ++ us) /\
    (forall a : addr F, valid a -> (member n a <-> exists m, In m (r ++ us) /\ member m a)) /\
    forall l, Forall (fun u => exists q, is_cidr u q) l ->
      (forall a : addr F, valid a -> ((exists u, In u us /\ member u a) <-> exists u, In u l /\ member u a)) ->
      (List.length us <= List.length l)%nat.
Proof.
  intros R T F n p cs r out Hn Hne Hp E Hfit Htop.
  pose proof (fits_start n p cs Hn ltac:(lia)) as Est.
  destruct (output_spec R T F n p cs r out Hn Hne Hp E) as (nx & la & Vn & Vl & En & El & Eo).
  rewrite Est in En, Eo. rewrite (proj2 (N.leb_le _ _)) in Eo by lia.
  destruct (split_some R F n cs r (proj1 Hn) E) as (Hlt & ns & Pm & Ht & _ & _).
  assert (Hmax : N.max (value nx) (value la) + 1 = value (base_addr n) + 2 ^ (width F - p)) by lia.
  assert (Hmin : N.min (value nx) (value la) = value (base_addr n) + total cs) by lia.
  destruct (range_tiles R F nx la Vn Vl) as (us & Eu & Tu); [lia|]. rewrite Eu in Eo. rewrite Hmin, Hmax in Tu. rewrite Est in Ht.
  exists us. split; [exact Eo|]. split; [apply cidr_iff_list; eapply tiles_cidr, Tu|].
  assert (Ta : tiles (value (base_addr n)) (ns ++ us) (value (base_addr n) + 2 ^ (width F - p))).
  { clear -Ht Tu. revert Ht Tu. generalize (value (base_addr n) + total cs) as y. generalize (value (base_addr n)) at 1 3 as x.
    induction ns as [|m ns IH]; intros x y; cbn [tiles app]; [intros ->; trivial|]. intros (Hm & Eb & Ht) Tu.
    split; [assumption|]. split; [assumption|]. eauto. }
  assert (Pa : Permutation (r ++ us) (ns ++ us)) by (now apply Permutation_app_tail).
  split; [apply (disjoint_perm (ns ++ us)); [now symmetry|now apply tiles_disjoint in Ta]|].
  split.
  - intros a Va. rewrite (perm_member _ _ a Pa), (tiles_member _ _ _ a Ta Va). now apply member_interval.
  - intros l Hl Hsame. apply (c36_shortest R F nx la us l Vn Vl Eu Hl). intros c Vc.
    rewrite <- (Hsame c Vc). rewrite (tiles_member us _ _ c Tu Vc). lia.
Qed.

Lemma c51_too_small : forall (R : Rust) (T : Terminal) (F : family) (n : net F) (p : N) (cs : list Z) (r : list (net F))
    (out : net F -> option (addr F) -> io unit),
  is_cidr n p -> cs <> [] -> prints out -> split_subnet n cs = Ret (Some r) ->
  value (base_addr n) + 2 ^ (width F - p) < run_start n cs + total cs ->
  output_split n cs out = (split_report out n cs r ++ [line (lit "Network is too small")], Ret 0%Z).
Proof.
  intros R T F n p cs r out Hn Hne Hp E H.
  destruct (output_spec R T F n p cs r out Hn Hne Hp E) as (nx & la & _ & _ & _ & _ & Eo).
  rewrite (proj2 (N.leb_gt _ _)) in Eo by assumption. exact Eo.
Qed.

Lemma c51_used_up : forall (R : Rust) (T : Terminal) (F : family) (n : net F) (p : N) (cs : list Z) (r : list (net F))
    (out : net F -> option (addr F) -> io unit),
  is_cidr n p -> cs <> [] -> prints out -> split_subnet n cs = Ret (Some r) ->
  let e := value (base_addr n) + 2 ^ (width F - p) in
  e = run_start n cs + total cs ->
  (e + 1 < 2 ^ width F ->
   exists us, output_split n cs out =
     (split_report out n cs r ++ [line (lit "Unused networks:")] ++ map (fun u => line (net_display u)) us, Ret 0%Z) /\
     Forall (fun u => exists q, is_cidr u q) us /\
     forall a : addr F, valid a -> ((exists u, In u us /\ member u a) <-> value a = e - 1 \/ value a = e)) /\
  (e + 1 = 2 ^ width F ->
   output_split n cs out = (split_report out n cs r ++ [line (lit "Unused networks:")], Panic)).
Proof.
  intros R T F n p cs r out Hn Hne Hp E e He.
  destruct (output_spec R T F n p cs r out Hn Hne Hp E) as (nx & la & Vn & Vl & En & El & Eo).
  destruct (c48_starts_at_base F n p cs Hn) as (_ & _ & Hend). specialize (Hend Hne).
  fold e in El, Eo. rewrite <- He in *. rewrite N.leb_refl in Eo.
  assert (Hmax : N.max (value nx) (value la) = e) by lia.
  assert (Hmin : N.min (value nx) (value la) = e - 1) by lia. split; intros Ht.
  - destruct (range_tiles R F nx la Vn Vl) as (us & Eu & Tu); [lia|]. rewrite Eu in Eo. rewrite Hmin, Hmax in Tu.
    exists us. split; [exact Eo|]. split; [apply cidr_iff_list; eapply tiles_cidr, Tu|].
    intros a Va. rewrite (tiles_member us _ _ a Tu Va). lia.
  - assert (4 <= 2 ^ width F) by (destruct F; vm_compute; discriminate).
    rewrite (c37_top_panics R F nx la Vn Vl) in Eo; [exact Eo|lia|lia].
Qed.

Lemma c51_top_panics : forall (R : Rust) (T : Terminal) (F : family) (n : net F) (p : N) (cs : list Z) (r : list (net F))
    (out : net F -> option (addr F) -> io unit),
  is_cidr n p -> cs <> [] -> prints out -> split_subnet n cs = Ret (Some r) ->
  value (base_addr n) + 2 ^ (width F - p) = 2 ^ width F ->
  output_split n cs out = (split_report out n cs r ++ [line (lit "Unused networks:")], Panic).
Proof.
  intros R T F n p cs r out Hn Hne Hp E He.
  destruct (output_spec R T F n p cs r out Hn Hne Hp E) as (nx & la & Vn & Vl & En & El & Eo).
  destruct (c48_starts_at_base F n p cs Hn) as (_ & _ & Hend). specialize (Hend Hne).
  destruct (split_some R F n cs r (proj1 Hn) E) as (Hlt & _).
  rewrite (proj2 (N.leb_le _ _)) in Eo by lia.
  rewrite (c37_top_panics R F nx la Vn Vl) in Eo; [exact Eo|lia|lia].
Qed.

Lemma c51_no_split : forall (R : Rust) (T : Terminal) (F : family) (n : net F) (cs : list Z)
    (out : net F -> option (addr F) -> io unit),
  wf_net n -> prints out -> split_subnet n cs = Ret None ->
  output_split n cs out =
  ([line (lit "Subnet to split:")] ++ fst (out n None) ++ [line []] ++
   [line (lit "Not enough addresses available for this split.")], Ret 1%Z).
Proof.
  intros R T F n cs out Hn Hp E. unfold output_split. rewrite E.
  rewrite io_println. rewrite (io_bind_ret (out n None) tt) by (apply Hp; [assumption|discriminate]). rewrite io_println, io_lift_ret, io_println.
  reflexivity.
Qed.

Lemma c51_partition_refuted : exists (n : net V4) (cs : list Z) (r : list (net V4)) (us : list (net V4)) (u u' m : net V4) (a : addr V4),
  is_cidr n 24 /\ @split_subnet debug_env (addr V4) ipv4_ops n cs = Ret (Some r) /\
  output_split (H := debug_env) n cs (fun m _ => println (@net_display (addr V4) ipv4_ops m)) =
    (split_report (fun m _ => println (@net_display (addr V4) ipv4_ops m)) n cs r ++
     [line (lit "Unused networks:")] ++ map (fun u => line (@net_display (addr V4) ipv4_ops u)) us, Ret 0%Z) /\
  In u us /\ In m r /\ valid a /\ member u a /\ member m a /\ In u' us /\ ~ includes n u'.
Proof.
  set (n := @new_with_mask (addr V4) ipv4_ops (ip4 10 0 0 0) (ip4 255 255 255 0)).
  set (u := @new_with_mask (addr V4) ipv4_ops (ip4 10 0 0 255) (ip4 255 255 255 255)).
  set (u' := @new_with_mask (addr V4) ipv4_ops (ip4 10 0 1 0) (ip4 255 255 255 255)).
  assert (Hn : is_cidr n 24) by (split; [apply wf_new; reflexivity|reflexivity]).
  assert (Hu : is_cidr u 32) by (split; [apply wf_new; reflexivity|reflexivity]).
  assert (Hu' : is_cidr u' 32) by (split; [apply wf_new; reflexivity|reflexivity]).
  exists n, [254%Z], [n], [u; u'], u, u', n, (ip4 10 0 0 255).
  split; [assumption|]. split; [vm_compute; reflexivity|]. split; [vm_compute; reflexivity|].
  split; [now left|]. split; [now left|]. split; [reflexivity|].
  rewrite (member_interval (R := debug_env) u 32) by (assumption || reflexivity).
  rewrite (member_interval (R := debug_env) n 24) by (assumption || reflexivity).
  split; [vm_compute; split; [discriminate|reflexivity]|]. split; [vm_compute; split; [discriminate|reflexivity]|].
  split; [right; now left|]. intros C. specialize (C (ip4 10 0 1 0) eq_refl).
  rewrite (member_interval (R := debug_env) u' 32) in C by (assumption || reflexivity).
  rewrite (member_interval (R := debug_env) n 24) in C by (assumption || reflexivity).
  assert (X : value (base_addr u') <= value (F := V4) (ip4 10 0 1 0) < value (base_addr u') + 2 ^ (width V4 - 32)).
  { vm_compute. split; [discriminate|reflexivity]. }
  apply C in X. vm_compute in X. destruct X as [_ X]. discriminate.
Qed.
