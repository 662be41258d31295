(** * Pf_Cost: proofs for P_Cost *)
From Verif Require Import RustBase Addr BitManip Cidr Net Derange Minimize Split Resize Enumerate Spec SpecCost Bits Weave Bytes Laws Order NetFacts SetFacts Family Loops Blocks DerangeFacts MinimizeFacts Pf_Derange Demo.
From Coq Require Import ZifyBool ZifyNat ZifyN.
Ltac Zify.zify_post_hook ::= idtac.

(** ** Lists *)
Lemma SS_snoc {A} (P : A -> A -> Prop) l x :
  StronglySorted P l -> Forall (fun y => P y x) l -> StronglySorted P (l ++ [x]).
Proof.
  intros Hs. induction Hs as [|y l Hs IH Hf]; intros Hx; cbn [app]; [repeat constructor|].
  inversion Hx; subst. constructor; [auto|]. apply Forall_app. split; [assumption|]. repeat constructor. assumption.
Qed.

Lemma SS_rev {A} (P : A -> A -> Prop) l :
  StronglySorted P l -> StronglySorted (fun x y => P y x) (rev l).
Proof.
  intros Hs. induction Hs as [|y l Hs IH Hf]; cbn [rev]; [constructor|].
  apply SS_snoc; [assumption|]. rewrite Forall_forall in *. intros x Hx. apply Hf. now apply in_rev.
Qed.

Lemma SS_mono {A} (P Q : A -> A -> Prop) l :
  (forall x y, P x y -> Q x y) -> StronglySorted P l -> StronglySorted Q l.
Proof.
  intros H Hs. induction Hs as [|y l Hs IH Hf]; constructor; [assumption|].
  eapply Forall_impl; [|exact Hf]. auto.
Qed.

Lemma sum_app l1 l2 : sum (l1 ++ l2) = sum l1 + sum l2.
Proof. induction l1 as [|x l1 IH]; cbn [app sum fold_right]; [reflexivity|]. fold (sum (l1 ++ l2)) (sum l1). lia. Qed.

Lemma sum_rev l : sum (rev l) = sum l.
Proof. induction l as [|x l IH]; cbn [rev]; [reflexivity|]. rewrite sum_app. cbn [sum fold_right] in *. fold (sum l). lia. Qed.

(** Strictly falling numbers below a bound. *)
Lemma falling_bound {A} (g : A -> N) l : forall B,
  StronglySorted (fun x y => g y < g x) l -> Forall (fun x => g x < B) l ->
  N.of_nat (List.length l) <= B /\ 2 * sum (map (fun x => g x + 1) l) <= B * (B + 1).
Proof.
  induction l as [|x l IH]; intros B Hs Hf; cbn [List.length map sum fold_right]; [lia|].
  fold (sum (map (fun x => g x + 1) l)). inversion Hs as [|? ? Hs' Hx]; subst. inversion Hf; subst.
  destruct (IH (g x) Hs' Hx) as [H1' H2']. split; [lia|]. nia.
Qed.

Lemma rising_bound {A} (g : A -> N) l B :
  StronglySorted (fun x y => g x < g y) l -> Forall (fun x => g x < B) l ->
  N.of_nat (List.length l) <= B /\ 2 * sum (map (fun x => g x + 1) l) <= B * (B + 1).
Proof.
  intros Hs Hf. apply SS_rev in Hs. destruct (falling_bound g (rev l) B Hs) as [H1 H2].
  - rewrite Forall_forall in *. intros x Hx. apply Hf. now apply in_rev.
  - rewrite rev_length in H1. rewrite map_rev, sum_rev in H2. auto.
Qed.

(** ** The shape of a greedy tiling *)
Section Shape.
  Context `{R : Rust} {A : Type} `{I : IpAddress A} `{L : !Laws A}.
  Implicit Types (n : network A) (l : list (network A)).
  Notation bs n := (base_addr n).
  Notation WN := (N.of_nat W).

  Definition expo n : N := N.log2 (size n).
  Lemma ex_size n : size n = 2 ^ expo n.
  Proof. unfold expo. destruct (size_log n) as (j & _ & ->). now rewrite N.log2_pow2 by lia. Qed.
  Lemma size_lt n n' : size n < size n' <-> expo n < expo n'.
  Proof. rewrite !ex_size. symmetry. apply N.pow_lt_mono_r_iff. lia. Qed.

  (** The next larger block does not fit. *)
  Definition down (y : N) n : Prop := y < v (bs n) + 2 * size n.

  Lemma mod_double x s i j : s = 2 ^ i -> i <= j -> x mod 2 ^ (j + 1) = 0 -> x mod (2 * s) = 0.
  Proof.
    intros -> Hij H. rewrite <- N.pow_succ_r'. apply (mod_pow_le _ _ (j + 1)); [lia|assumption].
  Qed.

  Lemma add_mod0 x y m : m <> 0 -> x mod m = 0 -> y mod m = 0 -> (x + y) mod m = 0.
  Proof. intros Hm Hx Hy. rewrite N.add_mod by assumption. rewrite Hx, Hy. now apply N.mod_0_l. Qed.

  Lemma shape_down x l y : tiles x l y -> Forall (greedy y) l ->
    match l with [] => True | e :: _ => down y e end ->
    StronglySorted (fun n n' => size n' < size n) l.
  Proof.
    revert x. induction l as [|e l IH]; intros x Ht Hg Hd; [constructor|].
    destruct Ht as (He & Eb & Ht). inversion Hg as [|? ? Hge Hg']; subst. unfold down in Hd.
    assert (Hsm : Forall (fun n => size n < size e) l).
    { apply Forall_forall. intros n Hn. destruct (tiles_bounds _ _ _ n Ht Hn) as [B1 B2]. lia. }
    constructor; [|exact Hsm]. apply (IH _ Ht Hg'). destruct l as [|e' l]; [trivial|].
    destruct Ht as (He' & Eb' & Ht). inversion Hg' as [|? ? [G|G] _]; subst; [|exact G]. exfalso. apply G.
    inversion Hsm as [|? ? Hs _]; subst. apply size_lt in Hs. rewrite Eb'.
    assert (Q : 2 * size e' = 2 ^ (expo e' + 1)) by (rewrite ex_size, N.add_1_r, N.pow_succ_r'; reflexivity).
    rewrite Q. apply (mod_pow_le _ _ (expo e)); [lia|]. rewrite <- ex_size.
    apply add_mod0; [pose proof (size_pos e); lia|now apply aligned|]. apply N.mod_same. pose proof (size_pos e). lia.
  Qed.

  Lemma shape x l y : tiles x l y -> Forall (greedy y) l ->
    exists l1 l2, l = l1 ++ l2 /\
      StronglySorted (fun n n' => size n < size n') l1 /\
      StronglySorted (fun n n' => size n' < size n) l2 /\
      (forall i, x mod 2 ^ (i + 1) = 0 -> Forall (fun n => i < expo n) l1).
  Proof.
    revert x. induction l as [|e l IH]; intros x Ht Hg.
    { exists [], []. repeat split; constructor. }
    destruct (N.lt_ge_cases y (v (bs e) + 2 * size e)) as [Hd|Hu].
    { exists [], (e :: l). split; [reflexivity|]. split; [constructor|].
      split; [now apply (shape_down x _ y)|]. intros; constructor. }
    destruct Ht as (He & Eb & Ht). inversion Hg as [|? ? [Ge|Ge] Hg']; subst; [|lia].
    destruct (IH _ Ht Hg') as (l1 & l2 & -> & S1 & S2 & Hup).
    assert (Q : 2 * size e = 2 ^ (expo e + 1)) by (rewrite ex_size at 1; rewrite N.add_1_r, N.pow_succ_r'; reflexivity).
    assert (Hx : (v (bs e) + size e) mod 2 ^ (expo e + 1) = 0).
    { rewrite <- Q. pose proof (size_pos e) as Hp. pose proof (aligned e He) as Ha.
      apply N.mod_divides in Ha; [|lia]. destruct Ha as [c Hc]. rewrite Hc in *.
      destruct (N.Even_or_Odd c) as [[d ->]|[d ->]].
      - exfalso. apply Ge. apply N.mod_divides; [lia|]. exists d. lia.
      - apply N.mod_divides; [lia|]. exists (d + 1). lia. }
    specialize (Hup _ Hx). exists (e :: l1), l2. split; [reflexivity|]. split; [|split; [assumption|]].
    - constructor; [assumption|]. eapply Forall_impl; [|exact Hup]. intros n. apply size_lt.
    - intros i Hi. assert (Hie : i < expo e).
      { apply N.lt_nge. intros C. apply Ge. rewrite Q. apply (mod_pow_le _ _ (i + 1)); [lia|assumption]. }
      constructor; [assumption|]. eapply Forall_impl; [|exact Hup]. cbn. intros n Hn. exact (N.lt_trans _ _ _ Hie Hn).
  Qed.

  Lemma shape_bounds x l y : tiles x l y -> Forall (greedy y) l -> y < 2 ^ WN ->
    N.of_nat (List.length l) <= 2 * (WN - 1) /\ sum (map (fun n => expo n + 1) l) <= WN * (WN - 1).
  Proof.
    intros Ht Hg Hy. destruct (shape x l y Ht Hg) as (l1 & l2 & -> & S1 & S2 & Hup).
    assert (S1' : StronglySorted (fun n n' => expo n < expo n') l1) by (eapply SS_mono; [|exact S1]; intros ? ?; apply size_lt).
    assert (S2' : StronglySorted (fun n n' => expo n' < expo n) l2) by (eapply SS_mono; [|exact S2]; intros ? ?; apply size_lt).
    pose proof law_nby as Hn. assert (HW : 8 <= WN) by (unfold W; lia).
    assert (Hex : Forall (fun n => expo n < WN) (l1 ++ l2)).
    { apply Forall_forall. intros n Hin. destruct (tiles_bounds _ _ _ n Ht Hin).
      apply (N.pow_lt_mono_r_iff 2); [lia|]. rewrite <- ex_size. lia. }
    rewrite app_length, map_app, sum_app, Nat2N.inj_add.
    destruct (N.eq_0_gt_0_cases x) as [->|Hx].
    - assert (l1 = []) as ->.
      { destruct l1 as [|e l1]; [reflexivity|]. specialize (Hup (expo e)).
        rewrite N.mod_0_l in Hup by (apply N.pow_nonzero; lia). specialize (Hup eq_refl). inversion Hup. lia. }
      destruct (falling_bound expo l2 WN S2' Hex) as [B1 B2]. cbn [List.length map sum fold_right]. split; [lia|].
      fold (sum (map (fun n => expo n + 1) l2)). nia.
    - assert (Hex' : Forall (fun n => expo n < WN - 1) (l1 ++ l2)).
      { apply Forall_forall. intros n Hin. pose proof (tiles_cidr _ _ _ Ht) as Hc. rewrite Forall_forall in Hc, Hex.
        specialize (Hc n Hin). specialize (Hex n Hin). destruct (tiles_bounds _ _ _ n Ht Hin) as [B1 B2].
        destruct (N.eq_dec (expo n) (WN - 1)) as [C|]; [|lia]. exfalso.
        pose proof (aligned n Hc) as Ha. rewrite ex_size, C in Ha, B2.
        assert (P : 2 ^ WN = 2 * 2 ^ (WN - 1)) by (rewrite <- N.pow_succ_r'; f_equal; lia).
        rewrite N.mod_small in Ha; lia. }
      apply Forall_app in Hex'. destruct Hex' as [H1 H2].
      destruct (rising_bound expo l1 (WN - 1) S1' H1) as [B1 B2].
      destruct (falling_bound expo l2 (WN - 1) S2' H2) as [B3 B4].
      replace (WN - 1 + 1) with WN in * by lia. split; lia.
  Qed.

  Lemma ex_prefix n p : cidr n -> cidr_prefix n = Some p -> p <= WN /\ expo n = WN - p.
  Proof.
    intros Hc Hp. apply cidr_prefix_size in Hp; [|assumption]. destruct Hp as [Hp E]. split; [assumption|].
    unfold expo. rewrite E. apply N.log2_pow2. lia.
  Qed.
End Shape.

Lemma width_WN {R : Rust} (F : family) : N.of_nat (W (A := addr F)) = width F.
Proof. now rewrite width_W. Qed.

Lemma c75_shape : forall (R : Rust) (F : family) (a b : addr F) (l : list (net F)),
  valid a -> valid b -> range_to_subnets a b = Ret l ->
  exists l1 l2, l = l1 ++ l2 /\
    StronglySorted (fun n n' => forall p p', is_cidr n p -> is_cidr n' p' -> p' < p) l1 /\
    StronglySorted (fun n n' => forall p p', is_cidr n p -> is_cidr n' p' -> p < p') l2.
Proof.
  intros R F a b l Ha Hb E. destruct (derange_ret R F a b Ha Hb l E) as (Hy & Ht & Hg).
  destruct (shape _ _ _ Ht Hg) as (l1 & l2 & -> & S1 & S2 & _). exists l1, l2. split; [reflexivity|].
  split; [eapply SS_mono; [|exact S1]|eapply SS_mono; [|exact S2]]; intros n n' Hs p p' Hp Hp'; apply size_lt in Hs;
    destruct (ex_prefix n p) as [B1 B2]; try apply Hp; [now apply is_cidr_cidr in Hp| |now apply is_cidr_cidr in Hp|];
    (destruct (ex_prefix n' p') as [B3 B4]; try apply Hp'; [now apply is_cidr_cidr in Hp'|]; lia).
Qed.

Lemma c75_count : forall (R : Rust) (F : family) (a b : addr F) (l : list (net F)),
  valid a -> valid b -> range_to_subnets a b = Ret l -> N.of_nat (List.length l) <= 2 * (width F - 1).
Proof.
  intros R F a b l Ha Hb E. destruct (derange_ret R F a b Ha Hb l E) as (Hy & Ht & Hg).
  rewrite width_W in *. now apply (shape_bounds _ _ _ Ht Hg).
Qed.

(** ** Loops *)
Section Takes.
  Context {S T : Type} (step : S -> res (S + T)).

  Lemma takes_pos s n r : takes step s n r -> 1 <= n.
  Proof. intros H. destruct H; lia. Qed.

  Lemma takes_fun s n r : takes step s n r -> forall n' r', takes step s n' r' -> n = n' /\ r = r'.
  Proof.
    intros H. induction H as [s r E|s s1 n r E H IH]; intros n' r' H'; inversion H' as [? ? E'|? s2 ? ? E' H2]; subst;
      rewrite E in E'; try discriminate.
    - injection E' as <-. auto.
    - injection E' as <-. apply IH in H2. destruct H2 as [-> ->]. auto.
  Qed.

  Lemma loop_takes k : forall s,
    match loop step k s with
    | Ret (inr r) => exists n, n <= 2 ^ N.of_nat k /\ takes step s n r
    | Ret (inl s') => forall n r, takes step s' n r -> takes step s (n + 2 ^ N.of_nat k) r
    | _ => True
    end.
  Proof.
    induction k as [|k IH]; intros s.
    - cbn [loop]. destruct (step s) as [[s'|r]| |] eqn:E; try exact Logic.I.
      + intros n r H. change (2 ^ N.of_nat 0) with 1. now apply takes_more with s'.
      + exists 1. split; [reflexivity|]. now constructor.
    - cbn [loop]. rewrite Nat2N.inj_succ, N.pow_succ_r'. pose proof (IH s) as H1.
      destruct (loop step k s) as [[s'|r]| |]; cbn [bind]; try exact Logic.I.
      + specialize (IH s'). destruct (loop step k s') as [[s''|r]| |]; try exact Logic.I.
        * intros n r H. apply IH in H. apply H1 in H.
          replace (n + 2 * 2 ^ N.of_nat k) with (n + 2 ^ N.of_nat k + 2 ^ N.of_nat k) by lia. assumption.
        * destruct IH as (n & Hn & H). apply H1 in H. exists (n + 2 ^ N.of_nat k). split; [lia|assumption].
      + destruct H1 as (n & Hn & H). exists n. split; [lia|assumption].
  Qed.

  Lemma takes_loop k : forall s n r, takes step s n r ->
    if n <=? 2 ^ N.of_nat k then loop step k s = Ret (inr r)
    else exists s', loop step k s = Ret (inl s') /\ takes step s' (n - 2 ^ N.of_nat k) r.
  Proof.
    induction k as [|k IH]; intros s n r H.
    - change (2 ^ N.of_nat 0) with 1. cbn [loop]. destruct H as [s r E|s s' n r E H]; [assumption|].
      pose proof (takes_pos _ _ _ H). rewrite (proj2 (N.leb_gt _ _)) by lia. exists s'. split; [assumption|].
      now rewrite N.add_sub.
    - cbn [loop]. rewrite Nat2N.inj_succ, N.pow_succ_r'. pose proof (IH s n r H) as H1.
      destruct (N.leb_spec n (2 ^ N.of_nat k)) as [Hle|Hgt].
      + rewrite H1, (proj2 (N.leb_le _ _)) by lia. reflexivity.
      + destruct H1 as (s' & -> & H'). cbn [bind]. specialize (IH _ _ _ H').
        destruct (N.leb_spec n (2 * 2 ^ N.of_nat k)) as [Hle|Hgt2].
        * now rewrite (proj2 (N.leb_le _ _)) in IH by lia.
        * rewrite (proj2 (N.leb_gt _ _)) in IH by lia. destruct IH as (s'' & -> & H''). exists s''. split; [reflexivity|].
          replace (n - 2 * 2 ^ N.of_nat k) with (n - 2 ^ N.of_nat k - 2 ^ N.of_nat k) by lia. assumption.
  Qed.

  Lemma while_takes s r : while step s = Ret r -> exists n, n <= 2 ^ 300 /\ takes step s n r.
  Proof.
    unfold while. intros E. pose proof (loop_takes fuel_doublings s) as H. change (N.of_nat fuel_doublings) with 300 in H.
    destruct (loop step fuel_doublings s) as [[s'|r']| |]; cbn [bind] in E; try discriminate. injection E as <-. assumption.
  Qed.

  Lemma takes_while s n r : n <= 2 ^ 300 -> takes step s n r -> while step s = Ret r.
  Proof.
    intros Hn H. unfold while. apply (takes_loop fuel_doublings) in H. change (N.of_nat fuel_doublings) with 300 in H.
    rewrite (proj2 (N.leb_le _ _) Hn) in H. rewrite H. reflexivity.
  Qed.

  (** Reasoning about the number of steps. *)
  Lemma takes_inv (Inv : S -> Prop) (Q : S -> N -> T -> Prop) :
    (forall s s', Inv s -> step s = Ret (inl s') -> Inv s') ->
    (forall s r, Inv s -> step s = Ret (inr r) -> Q s 1 r) ->
    (forall s s' n r, Inv s -> step s = Ret (inl s') -> Q s' n r -> Q s (n + 1) r) ->
    forall s n r, takes step s n r -> Inv s -> Q s n r.
  Proof.
    intros H1 H2 H3 s n r H. induction H as [s r E|s s' n r E H IH]; intros Hs; eauto.
  Qed.
End Takes.

Lemma c76_meaning : forall (S T : Type) (step : S -> res (S + T)) (s : S) (r : T),
  (while step s = Ret r <-> exists n, n <= 2 ^ 300 /\ takes step s n r) /\
  (forall n n' r', takes step s n r -> takes step s n' r' -> n = n' /\ r = r').
Proof.
  intros S T step s r. split; [split|].
  - apply while_takes.
  - intros (n & Hn & H). now apply takes_while with n.
  - intros n n' r' H H'. exact (takes_fun step s n r H n' r' H').
Qed.

Lemma c76_meaning_ex :
  let step := fun n : N => Ret (if n =? 3 then inr tt else inl (n + 1)) in
  while step 1 = Ret tt /\ takes step 1 3 tt.
Proof.
  cbv zeta. split; [vm_compute; reflexivity|].
  apply (takes_more _ 1 2 2); [reflexivity|]. apply (takes_more _ 2 3 1); [reflexivity|]. now constructor.
Qed.

(** *** Derange *)
Lemma tries_ex {R : Rust} {F} (n : net F) : cidr n -> tries n = expo n + 1.
Proof.
  intros Hc. destruct (cidr_some n Hc) as (p & Ep & _). destruct (ex_prefix n p Hc Ep) as [B E].
  unfold tries. rewrite Ep, E, width_W. reflexivity.
Qed.

Lemma sum_tries {R : Rust} {F} (l : list (net F)) : Forall cidr l -> sum (map tries l) = sum (map (fun n => expo n + 1) l).
Proof.
  intros Hl. f_equal. apply map_ext_in. intros n Hn. rewrite Forall_forall in Hl. now apply tries_ex, Hl.
Qed.

Section DerangeCost.
  Context `{R : Rust} {A : Type} `{I : IpAddress A} `{L : !Laws A}.
  Notation WN := (N.of_nat W).

  Lemma derange_cost last x0 st n (r : list (network A)) :
    okA last -> v last + 1 < 2 ^ WN -> takes (derange_step last) st n r -> derange_inv last x0 st ->
    let '(first, cur, ret) := st in
    if v first <=? v last then n + sum (map (fun n => expo n + 1) ret) + expo cur = sum (map (fun n => expo n + 1) r) + 1
    else n = 1 /\ r = ret.
  Proof.
    intros Hl Hy HT Hi.
    pose proof (derange_step_ok last x0 Hl (or_intror Hy)) as Hok. revert HT Hi.
    refine (takes_inv _ (derange_inv last x0) (fun st n r => let '(first, cur, ret) := st in
      if v first <=? v last then n + sum (map (fun n => expo n + 1) ret) + expo cur = sum (map (fun n => expo n + 1) r) + 1
      else n = 1 /\ r = ret) _ _ _ st n r).
    - clear st n r. intros s s' Hs E. specialize (Hok s Hs). rewrite E in Hok. apply Hok.
    - clear st n r. intros [[first cur] ret] r Hs E.
      destruct Hs as (Hf & Ht & Hg & Hc & Eb & Hle & Hsz). cbn [derange_step] in E. rewrite aleb_spec in E by assumption.
      destruct (N.leb_spec (v first) (v last)) as [Hfl|Hfl]; [|injection E as <-; auto].
      exfalso. revert E. destruct (unwrap _) as [p| |]; cbn [bind]; try discriminate.
      destruct (usize_sub _ _) as [q| |]; cbn [bind]; try discriminate.
      destruct (new_with_prefix first q) as [lg| |]; cbn [bind]; try discriminate.
      destruct (if negb _ then _ else _) as [[]| |]; cbn [bind]; try discriminate.
      destruct (next_subnet_base_addr cur) as [o| |]; cbn [bind]; try discriminate.
      destruct (unwrap o) as [f| |]; cbn [bind]; try discriminate.
      destruct (new_with_prefix f _) as [ns| |]; cbn [bind]; discriminate.
    - clear st n r. intros [[first cur] ret] s' n r Hs E Hq. pose proof (Hok _ Hs) as Hs'. rewrite E in Hs'.
      destruct Hs' as [Hs' _].
      destruct Hs as (Hf & Ht & Hg & Hc & Eb & Hle & Hsz). cbn [derange_step] in E. rewrite aleb_spec in E by assumption.
      destruct (N.leb_spec (v first) (v last)) as [Hfl|Hfl]; [|discriminate].
      specialize (Hsz ltac:(lia)). destruct (cidr_some cur Hc) as (p & Ep & Hp & Es).
      assert (Hp0 : p <> 0).
      { intros ->. rewrite N.sub_0_r in Es. lia. }
      destruct (ex_prefix cur p Hc Ep) as [_ Ecur].
      rewrite Ep in E. cbn [unwrap bind] in E. unfold usize_sub in E. rewrite (proj2 (N.ltb_ge _ _)) in E by lia.
      cbn [bind] in E.
      destruct (with_prefix_cidr first (p - 1) Hf) as (lg & Elg & Hlg & Mlg & Eplg & Eslg & Eblg); [lia|].
      rewrite Elg in E. cbn [bind] in E. revert E.
      destruct (if negb _ then _ else _) as [[]| |]; cbn [bind]; try discriminate.
      + destruct (next_subnet_base_addr cur) as [o| |]; cbn [bind]; try discriminate.
        destruct (unwrap o) as [f| |]; cbn [bind]; try discriminate.
        destruct (new_with_prefix f _) as [ns| |] eqn:Ens; cbn [bind]; try discriminate.
        intros E. injection E as <-. destruct Hs' as (Hf' & _ & _ & Hc' & _).
        destruct (full_prefix last f Hf') as (ns' & Ens' & _ & _ & Esz & _). rewrite Ens in Ens'. injection Ens' as <-.
        assert (Ex0 : expo ns = 0) by (unfold expo; rewrite Esz; reflexivity).
        destruct (v f <=? v last).
        * rewrite map_app, sum_app in Hq. cbn [map sum fold_right] in Hq. rewrite Ex0 in Hq. lia.
        * destruct Hq as [-> ->]. rewrite map_app, sum_app. cbn [map sum fold_right]. lia.
      + intros E. injection E as <-. destruct Hs' as (_ & _ & _ & Hc' & _).
        destruct (ex_prefix lg _ Hc' Eplg) as [_ Elg']. rewrite (proj2 (N.leb_le _ _) Hfl) in Hq. lia.
  Qed.

  Lemma derange_time (a b : A) l : okA a -> okA b -> range_to_subnets a b = Ret l ->
    let x := N.min (v a) (v b) in let y := N.max (v a) (v b) + 1 in
    y < 2 ^ WN -> tiles x l y -> Forall (greedy y) l ->
    exists start n, range_to_subnets a b = while (derange_step (amax a b)) start /\
      takes (derange_step (amax a b)) start n l /\
      n = sum (map (fun n => expo n + 1) l) + 1 /\ n <= WN * (WN - 1) + 1.
  Proof.
    intros Ha Hb E x y Hy Ht Hg.
    destruct (derange_start a b Ha Hb) as (cur & Ec & Hi & Hm & Es).
    assert (E' : range_to_subnets a b = while (derange_step (amax a b)) (amin a b, cur, [])).
    { unfold range_to_subnets. rewrite Ec. reflexivity. }
    rewrite E' in E. destruct (while_takes _ _ _ E) as (n & _ & HT).
    exists (amin a b, cur, []), n. split; [exact E'|]. split; [exact HT|].
    destruct (amin_v a b Ha Hb) as [O1 V1]. destruct (amax_v a b Ha Hb) as [O2 V2].
    assert (Hy' : v (amax a b) + 1 < 2 ^ WN) by (rewrite V2; exact Hy).
    pose proof (derange_cost (amax a b) _ _ n l O2 Hy' HT Hi) as C. cbv beta iota in C.
    rewrite V1, V2 in C. rewrite (proj2 (N.leb_le _ _)) in C by (clear; lia).
    assert (Ex0 : expo cur = 0) by (unfold expo; rewrite Es; reflexivity). rewrite Ex0 in C. cbn [map sum fold_right] in C.
    destruct (shape_bounds _ _ _ Ht Hg Hy) as [_ B]. clear -C B. split; lia.
  Qed.
End DerangeCost.

Lemma c76_derange : forall (R : Rust) (F : family) (a b : addr F) (l : list (net F)),
  valid a -> valid b -> range_to_subnets a b = Ret l ->
  exists start n,
    range_to_subnets a b = while (derange_step (amax a b)) start /\
    takes (derange_step (amax a b)) start n l /\
    n = sum (map tries l) + 1 /\ n <= width F * (width F - 1) + 1.
Proof.
  intros R F a b l Ha Hb E. destruct (derange_ret R F a b Ha Hb l E) as (Hy & Ht & Hg).
  pose proof (proj1 (valid_ok a) Ha) as Ha'. pose proof (proj1 (valid_ok b) Hb) as Hb'.
  rewrite width_W in Hy |- *. rewrite <- (value_v a Ha), <- (value_v b Hb) in Hy, Ht, Hg.
  destruct (derange_time a b l Ha' Hb' E Hy Ht Hg) as (start & n & E1 & HT & Hn & B).
  exists start, n. split; [exact E1|]. split; [exact HT|].
  rewrite sum_tries by (exact (tiles_cidr _ _ _ Ht)). auto.
Qed.

(** *** Minimize *)
Section MinimizeCost.
  Context `{R : Rust} {A : Type} `{I : IpAddress A} `{L : !Laws A} `{O : !Ordered A}.

  Lemma minimize_time (l r : list (network A)) : Forall okN l -> minimize_subnets l = Ret r ->
    exists start n f,
      minimize_subnets l = (f <- while merge_step start ;; Ret (sort_nets (hash_iter f))) /\
      takes merge_step start n f /\ n + N.of_nat (List.length r) <= N.of_nat (List.length l) + 1.
  Proof.
    intros Hl E.
    assert (Em : minimize_subnets l = (f <- while merge_step (first_filter l) ;; Ret (sort_nets (hash_iter f)))) by reflexivity.
    rewrite Em in E.
    destruct (while merge_step (first_filter l)) as [f| |] eqn:Ew; cbn [bind] in E; try discriminate. injection E as <-.
    destruct (while_takes _ _ _ Ew) as (n & _ & HT). exists (first_filter l), n, f.
    split; [rewrite Ew; exact Em|]. split; [exact HT|]. clear Em Ew.
    assert (H0 : okset (first_filter l)).
    { split.
      - apply Forall_forall. intros x Hx. apply (first_filter_In l Hl) in Hx. rewrite Forall_forall in Hl. now apply Hl.
      - unfold first_filter. cbv zeta. apply eliminate_NoDup, NoDup_collect. constructor. }
    assert (B : (List.length (first_filter l) <= List.length l)%nat).
    { unfold first_filter. cbv zeta. etransitivity; [apply eliminate_length|].
      etransitivity; [apply collect_length|]. cbn [List.length]. rewrite Nat.add_0_r.
      rewrite (Permutation_length (sort_nets_perm l)). lia. }
    assert (C : okset f /\ n + N.of_nat (List.length f) <= N.of_nat (List.length (first_filter l)) + 1).
    { revert HT H0. apply (takes_inv merge_step okset (fun s n f => okset f /\ n + N.of_nat (List.length f) <= N.of_nat (List.length s) + 1)).
      - intros s s' Hs Es. destruct (merge_step_spec s Hs) as [(ni & nj & Hi & Hj & P & E)|[_ E]]; rewrite E in Es; [|discriminate].
        injection Es as <-. now apply merge_pair_ok.
      - intros s x Hs Es. destruct (merge_step_spec s Hs) as [(ni & nj & Hi & Hj & P & E)|[_ E]]; rewrite E in Es; [discriminate|].
        injection Es as <-. split; [assumption|clear; lia].
      - intros s s' k x Hs Es Q. destruct (merge_step_spec s Hs) as [(ni & nj & Hi & Hj & P & E)|[_ E]]; rewrite E in Es; [|discriminate].
        injection Es as <-. destruct (merge_pair_ok s ni nj Hs Hi Hj P) as [_ Hlt]. destruct Q as [Q1 Q2]. split; [exact Q1|clear -Q2 Hlt; lia]. }
    destruct C as [Hf C]. destruct (sorted_set f Hf) as (_ & _ & _ & Hlen). clear -C B Hlen. lia.
  Qed.
End MinimizeCost.

Lemma c76_minimize : forall (R : Rust) (F : family) (l r : list (net F)),
  Forall wf_net l -> minimize_subnets l = Ret r ->
  exists start n f,
    minimize_subnets l = (f <- while merge_step start ;; Ret (sort_nets (hash_iter f))) /\
    takes merge_step start n f /\ n + N.of_nat (List.length r) <= N.of_nat (List.length l) + 1.
Proof.
  intros R F l r Hl. apply minimize_time. eapply Forall_impl; [|exact Hl]. intros n. apply wf_okN.
Qed.

Lemma c76_minimize_ex :
  let h k := @new_with_mask (addr V4) ipv4_ops (ip4 10 0 0 k) (ip4 255 255 255 255) in
  exists f, takes (@merge_step debug_env (addr V4) ipv4_ops) [h 4; h 5; h 6; h 7] 4 f /\ List.length f = 1%nat.
Proof.
  cbv zeta. eexists. split.
  - eapply (takes_more _ _ _ 3); [vm_compute; reflexivity|]. eapply (takes_more _ _ _ 2); [vm_compute; reflexivity|].
    eapply (takes_more _ _ _ 1); [vm_compute; reflexivity|]. constructor. vm_compute. reflexivity.
  - reflexivity.
Qed.

(** *** Split, resize, enumerate *)
Lemma grow_takes {R : Rust} {A} {I : IpAddress A} c (s : network A) k r : takes (grow_step c) s k r ->
  forall p p', cidr_prefix s = Some p -> cidr_prefix r = Some p' -> p' <= p /\ k = p - p' + 1.
Proof.
  intros H. induction H as [s r E|s s' k r E H IH]; intros p p' Hp Hp'; unfold grow_step in E;
    destruct (host_count s <? c)%Z; rewrite ?Hp in E; cbn [unwrap bind] in E; try discriminate.
  - destruct (N.eqb_spec p 0); [injection E as <-; rewrite Hp in Hp'; injection Hp' as <-; lia|].
    destruct (usize_sub p 1); cbn [bind] in E; try discriminate.
    destruct (new_with_prefix _ _); cbn [bind] in E; discriminate.
  - injection E as <-. rewrite Hp in Hp'. injection Hp' as <-. lia.
  - destruct (N.eqb_spec p 0); [discriminate|]. unfold usize_sub in E. rewrite (proj2 (N.ltb_ge _ _)) in E by lia.
    cbn [bind] in E. unfold new_with_prefix in E. destruct (unwrap _) as [m| |]; cbn [bind] in E; try discriminate.
    injection E as <-. destruct (IH (p - 1) p' eq_refl Hp'). lia.
Qed.

Lemma c76_grow : forall (R : Rust) (F : family) (c : Z) (n n' : net F) (p p' : N),
  is_cidr n p -> while (grow_step c) n = Ret n' -> is_cidr n' p' ->
  p' <= p /\ takes (grow_step c) n (p - p' + 1) n'.
Proof.
  intros R F c n n' p p' [_ Hp] E [_ Hp']. destruct (while_takes _ _ _ E) as (k & _ & HT).
  destruct (grow_takes c n k n' HT p p' Hp Hp') as [B ->]. auto.
Qed.

Lemma resize_takes {R : Rust} {A} {I : IpAddress A} m last (s : A * list (network A)) k r : takes (resize_step m last) s k r ->
  N.of_nat (List.length r) <= k + N.of_nat (List.length (snd s)) <= N.of_nat (List.length r) + 1.
Proof.
  intros H. induction H as [[cur nets] r E|[cur nets] s' k r E H IH]; cbn [resize_step snd] in *;
    destruct (aleb cur last); try discriminate.
  - destruct (weave_address cur m) as [w| |]; cbn [bind] in E; try discriminate.
    destruct (next_subnet_base_addr _) as [[nx|]| |]; cbn [bind] in E; try discriminate.
    + destruct (unravel_address _ _); cbn [bind] in E; discriminate.
    + injection E as <-. rewrite app_length. cbn [List.length]. lia.
  - injection E as <-. lia.
  - destruct (weave_address cur m) as [w| |]; cbn [bind] in E; try discriminate.
    destruct (next_subnet_base_addr _) as [[nx|]| |]; cbn [bind] in E; try discriminate.
    destruct (unravel_address _ _); cbn [bind] in E; try discriminate. injection E as <-.
    cbn [snd] in IH. rewrite app_length in IH. cbn [List.length] in IH. lia.
Qed.

Lemma resize_time {R : Rust} {A} {I : IpAddress A} (n : network A) m l : resize_network n m = Ret (l, Gt) ->
  exists last start k,
    resize_network n m = (l <- while (resize_step m last) start ;; Ret (l, Gt)) /\
    takes (resize_step m last) start k l /\ N.of_nat (List.length l) <= k <= N.of_nat (List.length l) + 1.
Proof.
  intros E. assert (D : exists last start, resize_network n m = (l <- while (resize_step m last) start ;; Ret (l, Gt)) /\ snd start = []).
  { revert E. unfold resize_network.
    destruct (_ <? _).
    { destruct (unravel_address _ _) as [u| |]; cbn [bind]; try discriminate.
      destruct (new_with_prefix _ _) as [s| |]; cbn [bind]; try discriminate.
      destruct (weave_address _ _) as [w| |]; cbn [bind]; discriminate. }
    destruct (_ =? _).
    { destruct (unravel_address _ _) as [u| |]; cbn [bind]; try discriminate.
      destruct (weave_address _ _) as [w| |]; cbn [bind]; discriminate. }
    destruct (unravel_address (base_addr n) _) as [u| |]; cbn [bind]; try discriminate.
    destruct (last_addr_of_subnet n) as [la| |]; cbn [bind]; try discriminate.
    destruct (unravel_address la _) as [ul| |]; cbn [bind]; try discriminate.
    intros _. exists ul, (u, []). split; reflexivity. }
  destruct D as (last & start & D & Hs). rewrite D in E.
  destruct (while (resize_step m last) start) as [l0| |] eqn:Ew; cbn [bind] in E; try discriminate. injection E as <-.
  destruct (while_takes _ _ _ Ew) as (k & _ & HT). exists last, start, k.
  split; [rewrite D, Ew; reflexivity|]. split; [exact HT|]. apply resize_takes in HT. rewrite Hs in HT.
  cbn [List.length] in HT. change (N.of_nat 0) with 0 in HT. rewrite N.add_0_r in HT. exact HT.
Qed.

Lemma c76_resize : forall (R : Rust) (F : family) (n : net F) (m : addr F) (l : list (net F)),
  wf_net n -> valid m -> resize_network n m = Ret (l, Gt) ->
  exists last start k,
    resize_network n m = (l <- while (resize_step m last) start ;; Ret (l, Gt)) /\
    takes (resize_step m last) start k l /\ N.of_nat (List.length l) <= k <= N.of_nat (List.length l) + 1.
Proof. intros R F n m l _ _ E. exact (resize_time n m l E). Qed.

Lemma enumerate_takes {R : Rust} {A} {I : IpAddress A} (s : network_iter A * list A) k r : takes enumerate_step s k r ->
  k + N.of_nat (List.length (snd s)) = N.of_nat (List.length r) + 1.
Proof.
  intros H. induction H as [[it acc] r E|[it acc] s' k r E H IH]; cbn [enumerate_step snd] in *;
    destruct (iter_next it) as [[[a|] it']| |]; cbn [bind] in E; try discriminate.
  - injection E as <-. rewrite rev_length. lia.
  - injection E as <-. cbn [snd List.length] in IH. lia.
Qed.

Lemma c76_enumerate : forall (R : Rust) (F : family) (n : net F) (l : list (addr F)),
  wf_net n -> enumerate_net n = Ret l ->
  exists start, enumerate_net n = while enumerate_step start /\
    takes enumerate_step start (N.of_nat (List.length l) + 1) l.
Proof.
  intros R F n l _ E. assert (D : exists it, enumerate_net n = while enumerate_step (it, [])).
  { revert E. unfold enumerate_net. destruct (iter_new n) as [it| |]; cbn [bind]; try discriminate. eauto. }
  destruct D as (it & D). rewrite D in E.
  destruct (while_takes _ _ _ E) as (k & _ & HT). exists (it, []). split; [exact D|].
  pose proof (enumerate_takes _ _ _ HT) as B. cbn [snd List.length] in B.
  change (N.of_nat 0) with 0 in B. rewrite N.add_0_r in B. rewrite <- B. assumption.
Qed.
