(** * SplitFacts: the loops of split_subnet *)
From Verif Require Import RustBase Addr BitManip Cidr Net Split Spec Bits Weave Bytes Laws NetFacts SetFacts Loops Blocks DerangeFacts Order.
From Coq Require Import ZifyBool ZifyNat ZifyN.
Ltac Zify.zify_post_hook ::= idtac.

Lemma Forall2_length {X Y} {P : X -> Y -> Prop} {xs : list X} {ys : list Y} :
  Forall2 P xs ys -> List.length xs = List.length ys.
Proof. induction 1; cbn; congruence. Qed.

Lemma log2_up_le x i : N.log2_up x <= i <-> x <= 2 ^ i.
Proof.
  destruct (N.eq_0_gt_0_cases x) as [->|H].
  - split; intros; [lia|]. cbn. lia.
  - symmetry. now apply N.log2_up_le_pow2.
Qed.

Lemma piece_spec c i : (c <= Z.of_N (2 ^ i) - 2)%Z <-> piece c <= i.
Proof. unfold piece. rewrite log2_up_le. pose proof (pow2_pos i). lia. Qed.

Lemma total_perm cs cs' : Permutation cs cs' -> total cs = total cs'.
Proof. unfold total. induction 1; cbn [map fold_right]; lia. Qed.
Lemma largest_perm cs cs' : Permutation cs cs' -> largest cs = largest cs'.
Proof. unfold largest. induction 1; cbn [map fold_right]; lia. Qed.
Lemma largest_ge cs c : In c cs -> piece c <= largest cs.
Proof.
  unfold largest. induction cs as [|d cs IH]; cbn [map fold_right In]; [contradiction|].
  intros [->|H]; [lia|]. apply IH in H. lia.
Qed.
Lemma largest_total cs : cs <> [] -> 2 ^ largest cs <= total cs.
Proof.
  unfold largest, total. induction cs as [|d cs IH]; [congruence|]. intros _. cbn [map fold_right].
  destruct cs as [|e cs].
  - cbn. rewrite N.max_0_r. lia.
  - specialize (IH ltac:(discriminate)).
    destruct (N.max_spec (piece d) (fold_right N.max 0 (map piece (e :: cs)))) as [[_ ->]|[_ ->]]; lia.
Qed.
Lemma piece_mono c d : (c <= d)%Z -> piece c <= piece d.
Proof. intros H. apply piece_spec. assert (X := proj2 (piece_spec d (piece d)) ltac:(lia)). lia. Qed.

Section Facts.
  Context `{R : Rust} {A : Type} `{I : IpAddress A} `{L : !Laws A}.
  Implicit Types (a b m : A) (n : network A) (l : list (network A)).
  Notation mk n := (subnet_mask n).
  Notation bs n := (base_addr n).
  Notation WN := (N.of_nat W).

  Lemma host_count_size n : cidr n -> host_count n = (Z.of_N (size n) - 2)%Z.
  Proof. intros [Hn _]. unfold host_count. now rewrite address_count_spec. Qed.

  Lemma round_round x i j : i <= j -> (x - x mod 2 ^ i) - (x - x mod 2 ^ i) mod 2 ^ j = x - x mod 2 ^ j.
  Proof.
    intros Hij. set (P := 2 ^ i). replace (2 ^ j) with (P * 2 ^ (j - i)).
    2:{ unfold P. rewrite <- N.pow_add_r. f_equal. lia. }
    set (Q := 2 ^ (j - i)). assert (HP : 0 < P) by apply pow2_pos. assert (HQ : 0 < Q) by apply pow2_pos.
    clearbody P Q. rewrite (N.mod_mul_r x) by lia.
    pose proof (N.div_mod x P ltac:(lia)) as E. pose proof (N.mod_lt x P ltac:(lia)) as Hm.
    set (q := x / P) in *. set (r := x mod P) in *. clearbody q r.
    pose proof (N.div_mod q Q ltac:(lia)) as E'. pose proof (N.mod_lt q Q ltac:(lia)) as Hm'.
    set (s := q mod Q) in *. set (t := q / Q) in *. subst x.
    replace (P * q + r - r) with (P * q) by lia.
    rewrite N.mul_mod_distr_l by lia. fold s. lia.
  Qed.

  Lemma mul2_pow i : 2 ^ (i + 1) = 2 * 2 ^ i.
  Proof. rewrite N.add_1_r. apply N.pow_succ_r'. Qed.

  (** The growing loop: from a block around [x] to the smallest sufficient one. *)
  Lemma grow_spec c x i n :
    cidr n -> size n = 2 ^ i -> i <= piece c -> v (bs n) = x - x mod 2 ^ i ->
    exists n', while (grow_step c) n = Ret n' /\ cidr n' /\
      size n' = 2 ^ (N.min (piece c) WN) /\ v (bs n') = x - x mod 2 ^ (N.min (piece c) WN).
  Proof.
    intros Hn Es Hi Eb.
    apply (while_total _ (fun n => cidr n /\ exists i, i <= piece c /\ i <= WN /\ size n = 2 ^ i /\ v (bs n) = x - x mod 2 ^ i)
             (fun n => match cidr_prefix n with Some p => p | None => 0 end)).
    - clear n i Hn Es Hi Eb. intros n (Hn & i & Hi & HiW & Es & Eb). unfold grow_step.
      rewrite host_count_size by assumption. pose proof (piece_spec c i) as PS. rewrite <- Es in PS.
      destruct (cidr_some n Hn) as (p & Ep & Hp & Es').
      assert (Epi : p = WN - i).
      { rewrite Es in Es'. clear -Es' Hp HiW. apply N.pow_inj_r in Es'; lia. }
      rewrite Ep. cbn [unwrap bind].
      destruct (Z.ltb_spec (Z.of_N (size n) - 2) c) as [Hlt|Hge].
      + destruct (N.eqb_spec p 0) as [Hp0|Hp0].
        * split; [assumption|]. replace (N.min (piece c) WN) with i by (clear -Hp0 Epi Hi HiW; lia). auto.
        * unfold usize_sub. rewrite (proj2 (N.ltb_ge _ _)) by (clear -Hp0; lia). cbn [bind].
          destruct (with_prefix_cidr (bs n) (p - 1)) as (n' & -> & Hn' & _ & Ep' & Es2 & Eb2); [apply Hn|clear -Hp; lia|].
          cbn [bind]. rewrite Ep'. split; [|clear -Hp0; lia]. split; [assumption|]. exists (i + 1).
          replace (WN - (p - 1)) with (i + 1) in * by (clear -Hp0 Epi Hp HiW; lia).
          split; [clear -PS Hlt Hi; lia|]. split; [clear -Hp0 Epi; lia|]. split; [assumption|].
          rewrite Eb2, Eb. apply round_round. clear. lia.
      + split; [assumption|]. replace (N.min (piece c) WN) with i by (clear -PS Hge Hi HiW; lia). auto.
    - split; [assumption|]. exists i. repeat split; try assumption.
      destruct (size_log n) as (j & Hj & Ej). rewrite Es in Ej. clear -Hj Ej. apply N.pow_inj_r in Ej; lia.
    - clear Eb. destruct (cidr_some n Hn) as (p & -> & Hp & _).
      assert (HW : WN <= 128) by (pose proof law_nby; unfold W; lia).
      assert (128 < 2 ^ 300) by reflexivity. lia.
  Qed.

  (** A single address as a network. *)
  Definition single x n : Prop := cidr n /\ size n = 1 /\ v (bs n) = x.

  Lemma single_with_prefix a m : okA a -> exists n, new_with_prefix a (N.of_nat (byte_count m * 8)) = Ret n /\ single (v a) n.
  Proof.
    intros Ha. destruct (full_prefix m a Ha) as (n & E & Hn & Eb & Es & _). exists n. split; [assumption|].
    split; [assumption|]. split; assumption.
  Qed.

  (** The grown network does not depend on where in the block it started. *)
  Lemma grow_single c x n :
    single x n ->
    exists n', while (grow_step c) n = Ret n' /\ cidr n' /\
      size n' = 2 ^ (N.min (piece c) WN) /\ v (bs n') = x - x mod 2 ^ (N.min (piece c) WN).
  Proof.
    intros (Hn & Es & Eb). apply (grow_spec c x 0 n); try assumption; [lia|].
    change (2 ^ 0) with 1. rewrite N.mod_1_r. lia.
  Qed.

  Lemma round_W x j : x < 2 ^ WN -> x - x mod 2 ^ N.min j WN = x - x mod 2 ^ j.
  Proof.
    intros Hx. destruct (N.le_gt_cases j WN) as [H|H]; [now rewrite N.min_l|].
    rewrite N.min_r by lia. assert (2 ^ WN <= 2 ^ j) by (apply N.pow_le_mono_r; lia).
    rewrite !N.mod_small by lia. reflexivity.
  Qed.

  Lemma grow_aligned c x x0 n n0 :
    single x n -> single x0 n0 -> x0 = x - x mod 2 ^ piece c ->
    while (grow_step c) n = while (grow_step c) n0.
  Proof.
    intros Hn Hn0 E. destruct (grow_single c x n Hn) as (r & -> & Hr & Es & Eb).
    destruct (grow_single c x0 n0 Hn0) as (r0 & -> & Hr0 & Es0 & Eb0).
    f_equal. apply cidr_ext; try assumption; [|congruence].
    rewrite Eb, Eb0. pose proof (v_lt (bs n)) as B. destruct Hn as (_ & _ & Ev). rewrite Ev in B.
    assert (B0 : x0 < 2 ^ WN) by (apply N.le_lt_trans with x; [rewrite E; apply N.le_sub_l|exact B]).
    rewrite (round_W x) by exact B. rewrite (round_W x0) by exact B0. rewrite E.
    symmetry. apply round_round. apply N.le_refl.
  Qed.

  Definition insert_all (es : list (nat * network A)) (t : list (nat * network A)) :=
    fold_left (fun t e => map_insert (fst e) (snd e) t) es t.

  Notation req := (nat * Z)%type.

  Lemma split_loop_spec (reqs : list req) :
    forall x n (t : list (nat * network A)),
    single x n ->
    StronglySorted (fun r r' : req => (snd r' <= snd r)%Z) reqs ->
    Forall (fun r : req => x mod 2 ^ piece (snd r) = 0) reqs ->
    if x + total (map snd reqs) <? 2 ^ WN
    then exists ns, split_loop reqs n t = Ret (Some (insert_all (combine (map fst reqs) ns) t)) /\
         tiles x ns (x + total (map snd reqs)) /\
         Forall2 (fun (r : req) n' => size n' = 2 ^ piece (snd r)) reqs ns
    else split_loop reqs n t = Ret None.
  Proof.
    induction reqs as [|[i c] reqs IH]; intros x n t Hn Hs Ha.
    - cbn [map total fold_right]. unfold total; cbn [map fold_right].
      rewrite N.add_0_r. pose proof (v_lt (bs n)) as B. destruct Hn as (Hn & Es & Eb). rewrite Eb in B.
      rewrite (proj2 (N.ltb_lt _ _)) by assumption. exists []. cbn [split_loop insert_all combine fold_left].
      split; [reflexivity|]. split; [reflexivity|constructor].
    - inversion Hs as [|? ? Hs' Hf]; subst. inversion Ha as [|? ? Ha0 Ha']; subst. cbn [snd] in Ha0.
      change (total (map snd ((i, c) :: reqs))) with (2 ^ piece c + total (map snd reqs)).
      cbn [split_loop]. destruct (grow_single c x n Hn) as (n' & -> & Hn' & Es & Eb). cbn [bind].
      pose proof (v_lt (bs n)) as B. destruct (Hn) as (_ & _ & Ev). rewrite Ev in B.
      rewrite round_W in Eb by assumption. rewrite Ha0, N.sub_0_r in Eb.
      destruct (cidr_some n' Hn') as (p & Ep & Hp & Es'). rewrite Ep. cbn [unwrap bind].
      assert (Epi : p = WN - N.min (piece c) WN).
      { rewrite Es in Es'. clear -Es' Hp. apply N.pow_inj_r in Es'; lia. }
      destruct (N.eqb_spec p 0) as [Hp0|Hp0].
      + assert (WN <= piece c) by (clear -Epi Hp0; lia). assert (2 ^ WN <= 2 ^ piece c) by (apply N.pow_le_mono_r; [discriminate|assumption]).
        rewrite (proj2 (N.ltb_ge _ _)) by (clear -H0; lia). reflexivity.
      + rewrite N.min_l in * by (clear -Hp0 Epi; lia). pose proof (next_base_cidr n' Hn') as Nx. rewrite Eb, Es in Nx.
        destruct (N.ltb_spec (x + 2 ^ piece c) (2 ^ WN)) as [Hlt|Hge].
        * destruct Nx as (a & -> & Oa & Ea). cbn [bind].
          destruct (single_with_prefix a (mk n') Oa) as (n2 & -> & Hn2). rewrite Ea in Hn2. cbn [bind].
          specialize (IH (x + 2 ^ piece c) n2 (map_insert i n' t) Hn2 Hs').
          rewrite <- N.add_assoc in IH.
          assert (Al : Forall (fun r : req => (x + 2 ^ piece c) mod 2 ^ piece (snd r) = 0) reqs).
          { rewrite Forall_forall in *. intros r Hr. specialize (Hf r Hr). cbn [snd] in Hf.
            apply piece_mono in Hf. apply (mod_pow_le _ _ (piece c)); [assumption|].
            rewrite N.add_mod by (apply N.pow_nonzero; discriminate).
            rewrite Ha0, N.mod_same by (apply N.pow_nonzero; discriminate). apply N.mod_0_l. apply N.pow_nonzero; discriminate. }
          specialize (IH Al). destruct (N.ltb_spec (x + (2 ^ piece c + total (map snd reqs))) (2 ^ WN)).
          -- destruct IH as (ns & E & Ht & Hz). exists (n' :: ns). cbn [map fst combine].
             split; [exact E|]. split; [|constructor; assumption].
             cbn [tiles]. split; [assumption|]. split; [assumption|]. now rewrite Es.
          -- exact IH.
        * rewrite Nx. cbn [bind]. rewrite (proj2 (N.ltb_ge _ _)) by (clear -Hge; lia). reflexivity.
  Qed.

  Lemma split_loop_aligned (reqs : list req) x n n0 (t : list (nat * network A)) :
    single x n -> StronglySorted (fun r r' : req => (snd r' <= snd r)%Z) reqs ->
    single (x - x mod 2 ^ largest (map snd reqs)) n0 ->
    split_loop reqs n t = split_loop reqs n0 t.
  Proof.
    destruct reqs as [|[i c] reqs]; intros Hn Hs Hn0; [reflexivity|].
    assert (E : largest (map snd ((i, c) :: reqs)) = piece c).
    { apply N.le_antisymm; [|apply largest_ge; now left]. unfold largest.
      assert (forall d, In d (map snd ((i, c) :: reqs)) -> piece d <= piece c).
      { intros d [<-|Hd]; [cbn; lia|]. inversion Hs as [|? ? Hs' Hf]; subst. rewrite Forall_forall in Hf.
        apply in_map_iff in Hd. destruct Hd as (r & <- & Hr). apply piece_mono. now apply Hf. }
      revert H. generalize (map snd ((i, c) :: reqs)). intros l. induction l as [|d l IH]; intros H; cbn [map fold_right]; [lia|].
      pose proof (H d (or_introl eq_refl)). apply N.max_lub; [assumption|]. apply IH. intros; apply H; now right. }
    rewrite E in Hn0. cbn [split_loop]. now rewrite (grow_aligned c x _ n n0 Hn Hn0 eq_refl).
  Qed.

  (** *** Putting the networks back into request order *)
  Lemma insert_all_fresh es : forall t : list (nat * network A),
    NoDup (map fst es) -> (forall k, In k (map fst es) -> ~ In k (map fst t)) -> insert_all es t = t ++ es.
  Proof.
    induction es as [|[k n] es IH]; intros t Hnd Hd; cbn [insert_all fold_left]; [now rewrite app_nil_r|].
    inversion Hnd as [|? ? Hk Hnd']; subst. fold (insert_all es).
    assert (F : map_insert k n t = t ++ [(k, n)]).
    { unfold map_insert. f_equal. specialize (Hd k (or_introl eq_refl)). clear -Hd.
      induction t as [|[j e] t IH]; cbn [filter fst]; [reflexivity|]. cbn [map fst In] in Hd.
      destruct (Nat.eqb_spec j k); [tauto|]. cbn [negb]. f_equal. apply IH. tauto. }
    change (insert_all es (map_insert k n t) = t ++ (k, n) :: es). rewrite F, IH; [now rewrite <- app_assoc|assumption|].
    intros j Hj. rewrite map_app, in_app_iff. cbn [map fst In]. intros [C|[C|[]]].
    - apply (Hd j); [now right|assumption].
    - subst j. contradiction.
  Qed.

  Lemma desc_sorted cs :
    StronglySorted (fun r r' : req => (snd r' <= snd r)%Z) (sort_by desc_cmp (combine (seq 0 (List.length cs)) cs)).
  Proof.
    apply Sorted_StronglySorted; [intros a b c; lia|].
    assert (S : Sorted (fun x y : req => desc_cmp x y <> Gt) (sort_by desc_cmp (combine (seq 0 (List.length cs)) cs))).
    { apply sort_by_sorted.
      - intros x y. apply Z.compare_antisym.
      - intros x y z. unfold desc_cmp. rewrite !Z.compare_le_iff. lia. }
    induction S as [|x l S IH Hr]; constructor; [assumption|].
    inversion Hr as [|y l' Hy]; subst; constructor. unfold desc_cmp in Hy. now rewrite Z.compare_le_iff in Hy.
  Qed.

  Lemma map_fst_combine {X Y} (xs : list X) (ys : list Y) :
    List.length xs = List.length ys -> map fst (combine xs ys) = xs.
  Proof. revert ys; induction xs as [|x xs IH]; intros [|y ys]; cbn; try discriminate; intros E; f_equal; auto. Qed.
  Lemma map_snd_combine {X Y} (xs : list X) (ys : list Y) :
    List.length xs = List.length ys -> map snd (combine xs ys) = ys.
  Proof. revert ys; induction xs as [|x xs IH]; intros [|y ys]; cbn; try discriminate; intros E; f_equal; auto. Qed.

  Lemma index_sorted (l : list (nat * network A)) : NoDup (map fst l) ->
    StronglySorted (fun a b : nat * network A => (fst a < fst b)%nat) (sort_by index_cmp l).
  Proof.
    intros Hnd. apply Sorted_StronglySorted; [intros a b c; lia|].
    pose proof (sort_by_perm _ index_cmp l) as P.
    assert (S : Sorted (fun x y => index_cmp x y <> Gt) (sort_by index_cmp l)).
    { apply sort_by_sorted.
      - intros x y. apply Nat.compare_antisym.
      - intros x y z. unfold index_cmp. rewrite !Nat.compare_le_iff. lia. }
    assert (Hnd' : NoDup (map fst (sort_by index_cmp l))).
    { eapply Permutation_NoDup; [|exact Hnd]. symmetry. now apply Permutation_map. }
    clear P Hnd. induction S as [|x l' S IH Hr]; constructor.
    - apply IH. now inversion Hnd'.
    - inversion Hr as [|y l'' Hy]; subst; constructor. unfold index_cmp in Hy. rewrite Nat.compare_le_iff in Hy.
      inversion Hnd' as [|? ? Hx _]; subst. cbn [map In] in Hx.
      assert (fst x <> fst y) by (intros C; apply Hx; left; congruence). lia.
  Qed.

  Lemma combine_sorted {Y} (ys : list Y) : forall k,
    StronglySorted (fun a b : nat * Y => (fst a < fst b)%nat) (combine (seq k (List.length ys)) ys).
  Proof.
    induction ys as [|y ys IH]; intros k; cbn [List.length seq combine]; constructor; [apply IH|].
    apply Forall_forall. intros [i z] Hin. apply in_combine_l in Hin. apply in_seq in Hin. cbn [fst]. lia.
  Qed.

  Lemma sorted_map {X Y} (f : X -> Y) (lt : Y -> Y -> Prop) (l : list X) :
    StronglySorted (fun x y => lt (f x) (f y)) l -> StronglySorted lt (map f l).
  Proof.
    induction 1 as [|x l S IH Hf]; cbn [map]; constructor; [assumption|].
    rewrite Forall_map. assumption.
  Qed.

  Lemma Forall2_maps {X Y Z} (P : Y -> Z -> Prop) (f : X -> Y) (g : X -> Z) (l : list X) :
    Forall (fun x => P (f x) (g x)) l -> Forall2 P (map f l) (map g l).
  Proof. induction 1; cbn [map]; constructor; assumption. Qed.

  Lemma combine_Forall {X Y} (P : X -> Y -> Prop) (xs : list X) (ys : list Y) :
    Forall2 P xs ys -> Forall (fun t => P (fst t) (snd t)) (combine xs ys).
  Proof. induction 1; cbn [combine]; constructor; assumption. Qed.

  Lemma reorder cs (reqs : list req) ns (P : Z -> network A -> Prop) :
    Permutation reqs (combine (seq 0 (List.length cs)) cs) ->
    Forall2 (fun r n => P (snd r) n) reqs ns ->
    let r := map snd (sort_by index_cmp (hash_iter (combine (map fst reqs) ns))) in
    Permutation r ns /\ Forall2 P cs r /\ Permutation (combine cs r) (combine (map snd reqs) ns).
  Proof.
    intros Pm Hf r. pose proof (Forall2_length Hf) as Hlen.
    set (T := combine reqs ns).
    assert (ET : combine (map fst reqs) ns = map (fun t => (fst (fst t), snd t)) T).
    { unfold T. clear -Hlen. revert ns Hlen. induction reqs as [|q reqs IH]; intros [|n ns]; cbn; try discriminate; [reflexivity|].
      intros E. f_equal. apply IH. congruence. }
    assert (Hnd : NoDup (map fst (combine (map fst reqs) ns))).
    { rewrite map_fst_combine by (rewrite map_length; assumption).
      eapply Permutation_NoDup; [apply Permutation_map; symmetry; exact Pm|].
      rewrite map_fst_combine by apply seq_length. apply seq_NoDup. }
    assert (P1 : Permutation (sort_by index_cmp (hash_iter (combine (map fst reqs) ns))) (combine (map fst reqs) ns)).
    { rewrite sort_by_perm. apply hash_iter_perm. }
    assert (S1 : StronglySorted (fun a b : nat * network A => (fst a < fst b)%nat) (sort_by index_cmp (hash_iter (combine (map fst reqs) ns)))).
    { apply index_sorted. eapply Permutation_NoDup; [|exact Hnd]. apply Permutation_map. symmetry. apply hash_iter_perm. }
    unfold r. clear r. revert P1 S1. generalize (sort_by index_cmp (hash_iter (combine (map fst reqs) ns))). intros s P1 S1.
    rewrite ET in P1. apply Permutation_map_inv in P1. destruct P1 as (T' & -> & PT).
    assert (EF : map fst T' = combine (seq 0 (List.length cs)) cs).
    { apply (strictly_sorted_ext (fun a b : req => (fst a < fst b)%nat)); [intros; lia|intros; lia| |apply combine_sorted|].
      - apply sorted_map. apply sorted_map in S1. cbn [fst] in S1.
        clear -S1. induction T' as [|t T' IH]; [constructor|]. cbn [map] in S1. inversion S1 as [|? ? S2 Hf]; subst.
        constructor; [apply IH; assumption|]. rewrite !Forall_map in Hf. exact Hf.
      - intros z. assert (PP : Permutation (map fst T') (combine (seq 0 (List.length cs)) cs)).
        { rewrite <- PT, <- Pm. unfold T. now rewrite map_fst_combine. }
        split; apply Permutation_in; [exact PP|now symmetry]. }
    rewrite map_map. cbn [snd].
    assert (EC : cs = map (fun t : req * network A => snd (fst t)) T').
    { rewrite <- (map_map fst snd), EF. symmetry. apply map_snd_combine. apply seq_length. }
    split.
    - rewrite <- (map_snd_combine reqs ns Hlen). fold T. symmetry. now apply (Permutation_map snd).
    - split.
      + rewrite EC at 1. apply Forall2_maps. apply combine_Forall in Hf. fold T in Hf.
        rewrite Forall_forall in *. intros t Ht. apply Hf. apply (Permutation_in _ (Permutation_sym PT)). assumption.
      + assert (E1 : combine (map (fun t : req * network A => snd (fst t)) T') (map snd T') = map (fun t => (snd (fst t), snd t)) T').
        { clear. induction T' as [|t T' IH]; cbn [map combine]; [reflexivity|]. now rewrite IH. }
        assert (E2 : combine (map snd reqs) ns = map (fun t : req * network A => (snd (fst t), snd t)) T).
        { unfold T. clear. revert ns. induction reqs as [|q reqs IH]; intros [|e ns]; cbn [map combine]; try reflexivity. now rewrite IH. }
        rewrite E2. rewrite EC at 1. transitivity (map (fun t : req * network A => (snd (fst t), snd t)) T').
        * rewrite <- E1. reflexivity.
        * symmetry. now apply Permutation_map.
  Qed.

  Definition start n cs : N := v (bs n) - v (bs n) mod 2 ^ largest cs.

  Lemma split_spec n cs :
    okA (bs n) ->
    if start n cs + total cs <? 2 ^ WN
    then exists r ns, split_subnet n cs = Ret (Some r) /\ Permutation r ns /\
         tiles (start n cs) ns (start n cs + total cs) /\
         StronglySorted (fun e e' => size e' <= size e) ns /\
         Forall2 (fun c e => size e = 2 ^ piece c) cs r /\
         exists cs', StronglySorted (fun c c' => c' <= c)%Z cs' /\ Permutation cs' cs /\
           List.length cs' = List.length ns /\ Permutation (combine cs r) (combine cs' ns)
    else split_subnet n cs = Ret None.
  Proof.
    intros Hb. unfold split_subnet. cbv zeta.
    destruct (single_with_prefix (bs n) (mk n) Hb) as (n1 & -> & Hn1). cbn [bind].
    pose proof (desc_sorted cs) as S. pose proof (sort_by_perm _ desc_cmp (combine (seq 0 (List.length cs)) cs)) as Pm.
    revert S Pm. generalize (sort_by desc_cmp (combine (seq 0 (List.length cs)) cs)). intros reqs S Pm.
    assert (PC : Permutation (map snd reqs) cs).
    { rewrite (Permutation_map snd Pm). rewrite map_snd_combine by apply seq_length. reflexivity. }
    assert (Hst : start n cs < 2 ^ WN).
    { unfold start. eapply N.le_lt_trans; [apply N.le_sub_l|apply v_lt]. }
    destruct (of_value _ Hst) as (a0 & Ha0 & E0).
    destruct (single_with_prefix a0 a0 Ha0) as (n0 & _ & Hn0). rewrite E0 in Hn0.
    assert (Hn0' : single (v (bs n) - v (bs n) mod 2 ^ largest (map snd reqs)) n0).
    { rewrite (largest_perm _ _ PC). exact Hn0. }
    rewrite (split_loop_aligned reqs _ _ _ [] Hn1 S Hn0').
    pose proof (split_loop_spec reqs _ n0 [] Hn0 S) as Sp. rewrite (total_perm _ _ PC) in Sp.
    assert (Al : Forall (fun r : req => start n cs mod 2 ^ piece (snd r) = 0) reqs).
    { apply Forall_forall. intros q Hq. apply (mod_pow_le _ _ (largest cs)).
      - apply largest_ge. apply (Permutation_in _ PC). now apply in_map.
      - unfold start. set (P := 2 ^ largest cs). assert (HP : P <> 0) by (apply N.pow_nonzero; discriminate).
        rewrite (N.div_mod (v (bs n)) P) at 1 by assumption. rewrite N.add_sub, N.mul_comm. now apply N.mod_mul. }
    specialize (Sp Al). destruct (start n cs + total cs <? 2 ^ WN).
    - destruct Sp as (ns & -> & Ht & Hz). cbn [bind].
      pose proof (Forall2_length Hz) as Hlen.
      rewrite insert_all_fresh; [|rewrite map_fst_combine by (rewrite map_length; assumption)|intros k _ []].
      2:{ eapply Permutation_NoDup; [apply Permutation_map; symmetry; exact Pm|].
          rewrite map_fst_combine by apply seq_length. apply seq_NoDup. }
      rewrite app_nil_l. destruct (reorder cs reqs ns (fun c e => size e = 2 ^ piece c) Pm Hz) as (H1 & H2 & H3).
      eexists _, ns. split; [reflexivity|]. split; [exact H1|]. split; [exact Ht|].
      split; [|split; [exact H2|exists (map snd reqs); repeat split; [now apply sorted_map|exact PC|now rewrite map_length|exact H3]]].
      clear -S Hz. revert ns Hz. induction S as [|q reqs S IH Hf]; intros ns Hz; inversion Hz as [|? e ? ns' E Hz']; subst; constructor; [auto|].
      apply Forall_forall. intros e' He'. rewrite Forall_forall in Hf.
      assert (X : exists q', In q' reqs /\ size e' = 2 ^ piece (snd q')).
      { clear -Hz' He'. induction Hz'; [contradiction|]. destruct He' as [<-|H']; [eexists; split; [now left|eassumption]|].
        destruct (IHHz' H') as (q' & ? & ?). exists q'. split; [now right|assumption]. }
      destruct X as (q' & Hq' & E'). rewrite E, E'. apply N.pow_le_mono_r; [discriminate|]. apply piece_mono. now apply Hf.
    - rewrite Sp. reflexivity.
  Qed.
End Facts.
