(** * DerangeFacts: the loop of range_to_subnets *)
From Verif Require Import RustBase Addr BitManip Cidr Net Derange Spec Bits Weave Bytes Laws NetFacts SetFacts Loops Blocks.
From Coq Require Import ZifyBool ZifyNat ZifyN.
Ltac Zify.zify_post_hook ::= Z.div_mod_to_equations.

Lemma mu_drop (y f s w p : N) :
  f + s <= y -> 0 < s -> (y - (f + s)) * (w + 1) + w < (y - f) * (w + 1) + p.
Proof.
  intros H1 H2. replace (y - f) with ((y - (f + s)) + s) by lia.
  rewrite N.mul_add_distr_r. assert (1 * (w + 1) <= s * (w + 1)) by (apply N.mul_le_mono_r; lia). lia.
Qed.

Section Facts.
  Context `{R : Rust} {A : Type} `{I : IpAddress A} `{L : !Laws A}.
  Implicit Types (a b m : A) (n : network A) (l : list (network A)).
  Notation mk n := (subnet_mask n).
  Notation bs n := (base_addr n).
  Notation WN := (N.of_nat W).

  (** [l] tiles the values from [x] up to but excluding [y]. *)
  Fixpoint tiles (x : N) l (y : N) : Prop :=
    match l with
    | [] => x = y
    | n :: l' => cidr n /\ v (bs n) = x /\ tiles (x + size n) l' y
    end.

  Lemma tiles_snoc x l y n : tiles x l y -> cidr n -> v (bs n) = y -> tiles x (l ++ [n]) (y + size n).
  Proof.
    revert x; induction l as [|e l IH]; intros x; cbn [tiles app].
    - intros -> Hn E. auto.
    - intros (He & Eb & Ht) Hn E. auto.
  Qed.

  Lemma tiles_le x l y : tiles x l y -> x <= y.
  Proof.
    revert x; induction l as [|e l IH]; intros x; cbn [tiles]; [lia|].
    intros (_ & _ & Ht). apply IH in Ht. lia.
  Qed.

  Lemma tiles_cidr x l y : tiles x l y -> Forall cidr l.
  Proof.
    revert x; induction l as [|e l IH]; intros x; cbn [tiles]; [constructor|].
    intros (He & _ & Ht). constructor; eauto.
  Qed.

  Lemma tiles_mem x l y a : tiles x l y -> (x <= v a < y <-> exists n, In n l /\ mem n a).
  Proof.
    revert x; induction l as [|e l IH]; intros x; cbn [tiles].
    - intros ->. split; [lia|]. intros (n & [] & _).
    - intros (He & Eb & Ht). pose proof (tiles_le _ _ _ Ht) as Hle. pose proof (size_pos e).
      specialize (IH _ Ht). split.
      + intros Ha. destruct (N.lt_ge_cases (v a) (x + size e)) as [Hlt|Hge].
        * exists e. split; [now left|]. rewrite mem_interval by assumption. lia.
        * destruct IH as [IH _]. destruct IH as (n & Hn & Hm); [lia|]. exists n. split; [now right|assumption].
      + intros (n & [<-|Hn] & Hm).
        * rewrite mem_interval in Hm by assumption. lia.
        * assert (x + size e <= v a < y) by (apply IH; eauto). lia.
  Qed.

  Lemma tiles_bounds x l y n : tiles x l y -> In n l -> x <= v (bs n) /\ v (bs n) + size n <= y.
  Proof.
    revert x; induction l as [|e l IH]; intros x; cbn [tiles]; [intros _ []|].
    intros (He & Eb & Ht) [<-|Hn].
    - apply tiles_le in Ht. lia.
    - specialize (IH _ Ht Hn). lia.
  Qed.

  Lemma tiles_sorted x l y :
    tiles x l y -> StronglySorted (fun n n' => v (bs n) + size n <= v (bs n')) l.
  Proof.
    revert x; induction l as [|e l IH]; intros x; cbn [tiles]; [constructor|].
    intros (He & Eb & Ht). constructor; [eauto|]. apply Forall_forall. intros n Hn.
    destruct (tiles_bounds _ _ _ n Ht Hn). lia.
  Qed.

  Lemma tiles_NoDup x l y : tiles x l y -> NoDup l.
  Proof.
    revert x; induction l as [|e l IH]; intros x; cbn [tiles]; [constructor|].
    intros (He & Eb & Ht). constructor; [|eauto]. intros Hin. pose proof (size_pos e).
    destruct (tiles_bounds _ _ _ e Ht Hin). lia.
  Qed.

  (** Greedy: the next larger block at the same base is misaligned or exceeds
      the range that ends before [y]. *)
  Definition greedy (y : N) n : Prop :=
    v (bs n) mod (2 * size n) <> 0 \/ y < v (bs n) + 2 * size n.

  Lemma greedy_maximal x l y :
    tiles x l y -> Forall (greedy y) l -> Forall (maximal (fun a => x <= v a < y)) l.
  Proof.
    intros Ht Hg. pose proof (tiles_cidr _ _ _ Ht) as Hc. rewrite Forall_forall in Hg, Hc.
    apply Forall_forall. intros n Hn. pose proof (Hc n Hn) as Hcn. split; [assumption|]. split.
    - intros a Ha Hm. apply (tiles_mem _ _ _ a Ht). eauto.
    - intros n' Hn' Hi S.
      assert (Hb : x <= v (bs n') < y) by (apply Hi; [apply Hn'|apply mem_base]).
      apply (tiles_mem _ _ _ _ Ht) in Hb. destruct Hb as (e & He & Hm).
      pose proof (Hc e He) as Hce. pose proof (size_pos e) as Pe. pose proof (size_pos n') as Pn'.
      pose proof (size_pos n) as Pn.
      assert (Hend : v (bs n') + size n' <= y).
      { pose proof (interval_top n' Hn'). destruct (of_value (v (bs n') + size n' - 1)) as (c & Hc' & Ec); [lia|].
        assert (x <= v c < y); [|lia]. apply Hi; [assumption|]. rewrite mem_interval by assumption. lia. }
      rewrite superset_interval in S by assumption.
      destruct (N.le_gt_cases (size n') (size e)) as [Hle|Hgt].
      + destruct (cidr_nest n' e Hn' Hce Hle) as [H1 H2].
        { exists (bs n'). split; [apply mem_base|assumption]. }
        assert (e = n).
        { pose proof (tiles_sorted _ _ _ Ht) as Hs.
          assert (Hov : v (bs e) < v (bs n) + size n /\ v (bs n) < v (bs e) + size e) by lia.
          clear -He Hn Hs Hov. induction Hs as [|z l Hs IH Hf]; [contradiction|].
          rewrite Forall_forall in Hf. destruct He as [->|He], Hn as [->|Hn]; auto.
          - specialize (Hf n Hn). lia.
          - specialize (Hf e He). lia. }
        subst e. apply cidr_ext; try assumption; lia.
      + exfalso. rewrite mem_interval in Hm by assumption.
        destruct (cidr_nest e n' Hce Hn' ltac:(lia)) as [H1 H2].
        { exists (bs n'). split; [rewrite mem_interval by assumption; lia|apply mem_base]. }
        assert (Eb : v (bs e) = v (bs n')) by lia.
        destruct (size_log e) as (i & _ & Ei). destruct (size_log n') as (j & _ & Ej).
        assert (Hij : i < j).
        { apply N.lt_nge. intros C. assert (2 ^ j <= 2 ^ i) by (apply N.pow_le_mono_r; lia). lia. }
        assert (Hd : 2 * size e = 2 ^ (N.succ i)) by (rewrite N.pow_succ_r'; lia).
        assert (H2s : 2 * size e <= size n').
        { rewrite Hd, Ej. apply N.pow_le_mono_r; lia. }
        destruct (Hg e He) as [G|G].
        * apply G. rewrite Hd, Eb. apply (mod_pow_le _ _ j); [lia|]. rewrite <- Ej. now apply aligned.
        * lia.
  Qed.

  (** ** The loop *)
  Lemma next_base_cidr n :
    cidr n ->
    if v (bs n) + size n <? 2 ^ WN
    then exists a, next_subnet_base_addr n = Ret (Some a) /\ okA a /\ v a = v (bs n) + size n
    else next_subnet_base_addr n = Ret None.
  Proof.
    intros [Hn [p Hc]]. pose proof (next_base_spec n Hn) as S. unfold size.
    rewrite (contig_v _ (bs n) _ Hc), (okN_host n Hn).
    pose proof (pow_W (mk n)) as HW. pose proof (pow2_pos (N.of_nat (hf (mk n)))).
    destruct (N.ltb_spec (nv (mk n) (bs n) + 1) (2 ^ N.of_nat (kt (mk n)))).
    - destruct S as (a & E & Ha & Enb & Eh). rewrite (proj2 (N.ltb_lt _ _)) by (rewrite HW; nia).
      exists a. repeat split; try assumption. rewrite (contig_v _ a _ Hc), Enb, Eh. lia.
    - rewrite (proj2 (N.ltb_ge _ _)) by (rewrite HW; nia). assumption.
  Qed.

  Notation state := (A * network A * list (network A))%type.

  Section Run.
    Context (last : A) (x0 : N) (Hlast : okA last).
    Let y0 : N := v last + 1.

    Definition derange_inv (st : state) : Prop :=
      let '(first, cur, ret) := st in
      okA first /\ tiles x0 ret (v first) /\ Forall (greedy y0) ret /\ cidr cur /\
      v (bs cur) = v first /\ v first <= y0 /\ (v first < y0 -> v first + size cur <= y0).

    Definition derange_mu (st : state) : N :=
      let '(first, cur, _) := st in
      (y0 - v first) * (WN + 1) + match cidr_prefix cur with Some p => p | None => 0 end.

    Lemma full_prefix first :
      okA first -> exists n, new_with_prefix first (N.of_nat (byte_count last * 8)) = Ret n /\
        cidr n /\ v (bs n) = v first /\ size n = 1 /\ cidr_prefix n = Some WN.
    Proof.
      intros Hf. rewrite law_byte_count. replace (N.of_nat (nby * 8)) with WN by (unfold W; lia).
      destruct (with_prefix_cidr first WN Hf) as (n & E & Hn & Hm & Hp & Es & Eb); [lia|].
      rewrite N.sub_diag in *. change (2 ^ 0) with 1 in *. exists n. rewrite N.mod_1_r in Eb.
      repeat split; try apply Hn; try assumption. lia.
    Qed.

    Lemma derange_step_ok :
      0 < x0 \/ y0 < 2 ^ WN ->
      step_ok (derange_step last) derange_inv derange_mu
        (fun r => y0 < 2 ^ WN /\ tiles x0 r y0 /\ Forall (greedy y0) r) (y0 = 2 ^ WN).
    Proof.
      intros Hnf [[first cur] ret] (Hf & Ht & Hg & Hc & Eb & Hle & Hsz). cbn [derange_step].
      assert (Ly : y0 <= 2 ^ WN) by (unfold y0; pose proof (v_lt last); lia).
      rewrite aleb_spec by assumption. destruct (N.leb_spec (v first) (v last)) as [Hfl|Hfl].
      2:{ pose proof (v_lt first). assert (v first = y0) as Ev by (unfold y0 in *; lia). rewrite Ev in Ht.
          split; [lia|]. split; assumption. }
      assert (Hsz' : v first + size cur <= y0) by (apply Hsz; unfold y0; lia). clear Hsz.
      destruct (cidr_some cur Hc) as (p & Ep & Hp & Es). rewrite Ep. cbn [unwrap bind].
      pose proof (tiles_le _ _ _ Ht) as Hx0. pose proof (size_pos cur) as Hpos.
      assert (Hp0 : p <> 0).
      { intros ->. rewrite N.sub_0_r in Es. pose proof (v_lt first). lia. }
      unfold usize_sub. rewrite (proj2 (N.ltb_ge _ _)) by lia. cbn [bind].
      destruct (with_prefix_cidr first (p - 1) Hf) as (lg & -> & Hlg & Mlg & Eplg & Eslg & Eblg); [lia|].
      cbn [bind].
      assert (E2 : 2 ^ (WN - (p - 1)) = 2 * size cur).
      { rewrite Es. rewrite <- N.pow_succ_r'. f_equal. lia. }
      rewrite E2 in *.
      rewrite aeqb_v by (assumption || apply Hlg).
      destruct (last_addr_spec lg (proj1 Hlg)) as (la & Ela & Hla & _).
      destruct (last_addr_value lg la Hlg Ela) as [_ Vla].
      assert (Push : greedy y0 cur ->
        match (next <- next_subnet_base_addr cur ;; first_addr <- unwrap next ;;
               new_subnet <- new_with_prefix first_addr (N.of_nat (byte_count last * 8)) ;;
               Ret (inl (first_addr, new_subnet, ret ++ [cur]))) : res (state + list (network A)) with
        | Ret (inl s') => derange_inv s' /\ derange_mu s' < derange_mu (first, cur, ret)
        | Ret (inr r) => y0 < 2 ^ WN /\ tiles x0 r y0 /\ Forall (greedy y0) r
        | Panic => y0 = 2 ^ WN
        | Diverge => False
        end).
      { intros Hgr. pose proof (next_base_cidr cur Hc) as Sn. rewrite Eb in Sn.
        destruct (N.ltb_spec (v first + size cur) (2 ^ WN)) as [Hlt|Hge].
        - destruct Sn as (a & -> & Ha & Va). cbn [bind unwrap].
          destruct (full_prefix a Ha) as (n & -> & Hn & Ebn & Esn & Epn). cbn [bind].
          split.
          + cbn [derange_inv]. split; [assumption|]. rewrite Va. split; [now apply tiles_snoc|].
            split; [apply Forall_app; auto|]. split; [assumption|]. split; [congruence|].
            split; [assumption|]. rewrite Esn. lia.
          + cbn [derange_mu]. rewrite Epn, Ep, Va.
            now apply mu_drop.
        - rewrite Sn. cbn [bind unwrap]. lia. }
      destruct (N.eqb_spec (v (bs lg)) (v first)) as [Eal|Eal]; cbn [negb].
      - clear Eblg. rewrite Ela. cbn [bind]. unfold agtb. rewrite altb_spec by assumption.
        destruct (N.ltb_spec (v last) (v la)) as [Hb|Hb].
        + apply Push. right. rewrite Vla, Eal, Eslg in Hb. rewrite Eb. unfold y0. lia.
        + rewrite Vla, Eal, Eslg in Hb. cbn [derange_inv derange_mu]. rewrite Eplg, Ep. split.
          * split; [assumption|]. split; [assumption|]. split; [assumption|]. split; [assumption|].
            split; [assumption|]. split; [assumption|]. intros _. rewrite Eslg. unfold y0. lia.
          * lia.
      - cbn [bind]. apply Push. left. rewrite Eb. rewrite Eblg in Eal. intros C. rewrite C, N.sub_0_r in Eal. now apply Eal.
    Qed.
  End Run.

  Lemma mu_bound (a b c : N) : a <= 2 ^ WN -> c <= WN -> a * (WN + 1) + c < 2 ^ 300.
  Proof.
    intros Ha Hc. pose proof law_nby. assert (HW : WN <= 128) by (unfold W; lia).
    assert (2 ^ WN <= 2 ^ 128) by (apply N.pow_le_mono_r; lia).
    assert (a * (WN + 1) + c <= 2 ^ 128 * 129 + 128) by nia.
    assert (2 ^ 128 * 129 + 128 < 2 ^ 300) by (vm_compute; reflexivity). lia.
  Qed.

  Lemma amin_v a b : okA a -> okA b -> okA (amin a b) /\ v (amin a b) = N.min (v a) (v b).
  Proof.
    intros Ha Hb. unfold amin. rewrite law_cmp by assumption.
    unfold N.min. destruct (v a ?= v b) eqn:E; auto.
  Qed.
  Lemma amax_v a b : okA a -> okA b -> okA (amax a b) /\ v (amax a b) = N.max (v a) (v b).
  Proof.
    intros Ha Hb. unfold amax. rewrite law_cmp by assumption.
    unfold N.max. destruct (v a ?= v b) eqn:E; auto.
  Qed.

  Lemma derange_start a b :
    okA a -> okA b ->
    exists cur, new_with_prefix (amin a b) (N.of_nat (byte_count (amax a b) * 8)) = Ret cur /\
      derange_inv (amax a b) (N.min (v a) (v b)) (amin a b, cur, []) /\
      derange_mu (amax a b) (amin a b, cur, []) < 2 ^ 300 /\ size cur = 1.
  Proof.
    intros Ha Hb. destruct (amin_v a b Ha Hb) as [H1 E1]. destruct (amax_v a b Ha Hb) as [H2 E2].
    destruct (full_prefix (amax a b) (amin a b) H1) as (cur & E & Hc & Eb & Es & Ep).
    exists cur. split; [assumption|]. split; [|split; [|assumption]].
    - unfold derange_inv. rewrite E2, E1 in *. split; [assumption|]. split; [reflexivity|].
      split; [constructor|]. split; [assumption|]. split; [assumption|]. rewrite Es. lia.
    - unfold derange_mu. rewrite Ep. apply mu_bound; [exact 0| |lia].
      pose proof (v_lt (amax a b)). lia.
  Qed.

  (** Not the full range: a result unless the range ends at the top. *)
  Lemma derange_spec a b :
    okA a -> okA b ->
    let x := N.min (v a) (v b) in let y := N.max (v a) (v b) + 1 in
    0 < x \/ y < 2 ^ WN ->
    if y <? 2 ^ WN
    then exists l, range_to_subnets a b = Ret l /\ tiles x l y /\ Forall (greedy y) l
    else range_to_subnets a b = Panic.
  Proof.
    intros Ha Hb x y Hnf. unfold range_to_subnets.
    destruct (amax_v a b Ha Hb) as [H2 E2].
    destruct (derange_start a b Ha Hb) as (cur & -> & Hi & Hm & _). cbn [bind]. cbv zeta.
    assert (Ey : v (amax a b) + 1 = y) by (rewrite E2; reflexivity).
    pose proof (while_measure _ _ _ _ _ _ (derange_step_ok (amax a b) x H2 ltac:(rewrite Ey; exact Hnf)) Hi Hm) as S.
    rewrite Ey in S. destruct (while _ _) as [l| |].
    - destruct S as (Hy & Ht & Hg). rewrite (proj2 (N.ltb_lt _ _)) by assumption. eauto.
    - rewrite S, N.ltb_irrefl. reflexivity.
    - contradiction.
  Qed.

  (** The full range. *)
  Lemma derange_full_checked a b :
    okA a -> okA b -> N.min (v a) (v b) = 0 -> N.max (v a) (v b) + 1 = 2 ^ WN ->
    overflow_checks = true -> range_to_subnets a b = Panic.
  Proof.
    intros Ha Hb Hlo Hhi Hoc. unfold range_to_subnets.
    destruct (amax_v a b Ha Hb) as [H2 E2]. destruct (amin_v a b Ha Hb) as [H1 E1].
    destruct (full_prefix (amax a b) (amin a b) H1) as (cur & -> & Hc & Eb & Es & Ep).
    cbn [bind]. cbv zeta.
    apply (while_panics _ (fun st => let '(first, cur, _) := st in
              okA first /\ v first = 0 /\ cidr cur)
            (fun st => let '(_, cur, _) := st in match cidr_prefix cur with Some p => p | None => 0 end)).
    - clear cur Hc Eb Es Ep. intros [[first cur] ret] (Hf & Hf0 & Hc). cbn [derange_step].
      rewrite aleb_spec, Hf0 by assumption. rewrite (proj2 (N.leb_le _ _)) by lia.
      destruct (cidr_some cur Hc) as (p & Ep & Hp & Es). rewrite Ep. cbn [unwrap bind].
      unfold usize_sub. destruct (N.ltb_spec p 1) as [Hp1|Hp1]; [rewrite Hoc; exact Logic.I|].
      cbn [bind]. destruct (with_prefix_cidr first (p - 1) Hf) as (lg & -> & Hlg & Mlg & Eplg & Eslg & Eblg); [lia|].
      cbn [bind]. rewrite Hf0, N.sub_0_l in Eblg. rewrite aeqb_v, Hf0, Eblg by (assumption || apply Hlg).
      cbn [N.eqb negb]. destruct (last_addr_spec lg (proj1 Hlg)) as (la & -> & Hla & _). cbn [bind].
      unfold agtb. rewrite altb_spec by assumption. pose proof (v_lt la).
      rewrite (proj2 (N.ltb_ge _ _)) by lia. rewrite Eplg. split; [auto|lia].
    - split; [assumption|]. split; [congruence|assumption].
    - rewrite Ep. pose proof law_nby. assert (HW : WN <= 128) by (unfold W; lia).
      apply N.le_lt_trans with 128; [assumption|]. reflexivity.
  Qed.

  Definition stuck (last : A) (st : state) : Prop :=
    let '(first, cur, ret) := st in
    okA first /\ v first = 0 /\ (exists p, cidr_prefix cur = Some p) /\ ret = [].

  Lemma derange_stuck last :
    okA last -> v last + 1 = 2 ^ WN -> overflow_checks = false ->
    forall s, stuck last s -> exists s', derange_step last s = Ret (inl s') /\ stuck last s'.
  Proof.
    intros Hl Htop Hoc [[first cur] ret] (Hf & Hf0 & (p & Ep) & ->). cbn [derange_step].
    rewrite aleb_spec, Hf0 by assumption. rewrite (proj2 (N.leb_le _ _)) by lia.
    rewrite Ep. cbn [unwrap bind]. unfold usize_sub. rewrite Hoc.
    assert (E : exists q, (if p <? 1 then Ret (p + 2 ^ usize_bits - 1) else Ret (p - 1)) = Ret q).
    { destruct (p <? 1); eauto. }
    destruct E as [q ->]. cbn [bind].
    destruct (with_prefix_spec first q Hf) as (m & Hm & Ebm & ->). cbn [bind base_addr].
    destruct (law_and first m Hf Hm) as [Hand _].
    rewrite aeqb_v, Hf0, v_and, Hf0, N.land_0_l by assumption. cbn [N.eqb negb].
    assert (E : exists la, okA la /\ last_addr_of_subnet {| base_addr := band first m; subnet_mask := m; cidr_prefix := Some q |} = Ret la).
    { destruct (last_addr_spec (new_with_mask first m) (okN_with_mask first m Hf Hm)) as (la & E & Hla & _).
      exists la. split; [assumption|]. rewrite <- E. reflexivity. }
    destruct E as (la & Hla & ->). cbn [bind].
    unfold agtb. rewrite altb_spec by assumption. pose proof (v_lt la).
    rewrite (proj2 (N.ltb_ge _ _)) by lia. eexists. split; [reflexivity|].
    cbn [stuck cidr_prefix]. eauto.
  Qed.

  Lemma derange_full_unchecked a b :
    okA a -> okA b -> N.min (v a) (v b) = 0 -> N.max (v a) (v b) + 1 = 2 ^ WN ->
    overflow_checks = false ->
    range_to_subnets a b = Diverge /\
    exists s0, (forall k, exists s, loop (derange_step (amax a b)) k s0 = Ret (inl s)) /\
               range_to_subnets a b = while (derange_step (amax a b)) s0.
  Proof.
    intros Ha Hb Hlo Hhi Hoc. unfold range_to_subnets.
    destruct (amax_v a b Ha Hb) as [H2 E2]. destruct (amin_v a b Ha Hb) as [H1 E1].
    destruct (full_prefix (amax a b) (amin a b) H1) as (cur & -> & Hc & Eb & Es & Ep).
    cbn [bind]. cbv zeta.
    assert (Hst : stuck (amax a b) (amin a b, cur, [])).
    { cbn [stuck]. rewrite E1. eauto. }
    assert (Htop : v (amax a b) + 1 = 2 ^ WN) by lia.
    split; [now apply (while_forever _ (stuck (amax a b)) _ (derange_stuck _ H2 Htop Hoc))|].
    eexists. split; [|reflexivity]. intros k.
    destruct (loop_forever _ _ (derange_stuck _ H2 Htop Hoc) k _ Hst) as (s' & E & _). eauto.
  Qed.

  Lemma derange_comm a b : okA a -> okA b -> range_to_subnets a b = range_to_subnets b a.
  Proof.
    intros Ha Hb. unfold range_to_subnets.
    destruct (amin_v a b Ha Hb) as [H1 E1]. destruct (amin_v b a Hb Ha) as [H2 E2].
    destruct (amax_v a b Ha Hb) as [H3 E3]. destruct (amax_v b a Hb Ha) as [H4 E4].
    replace (amin b a) with (amin a b) by (apply v_inj; try assumption; lia).
    replace (amax b a) with (amax a b) by (apply v_inj; try assumption; lia).
    reflexivity.
  Qed.
End Facts.
