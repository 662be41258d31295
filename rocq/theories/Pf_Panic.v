(** * Pf_Panic: proofs about the places of panics *)
From Verif Require Import RustBase Addr BitManip Cidr Net Derange Spec Bits Weave Bytes Laws NetFacts SetFacts Loops Blocks DerangeFacts SplitFacts Order Family.
From Verif Require Import Parse Console ShowNet Main Messages Process SpecMessages SpecIO SpecShow Panics SpecPanic.
From Verif Require Import Pf_Net Pf_Derange Pf_Split Pf_Netspec Pf_Main Pf_Process Pf_Crash.
From Coq Require Import ZifyBool ZifyNat ZifyN.
Ltac Zify.zify_post_hook ::= idtac.

(** ** Forgetting places *)
Lemma forget_at {T} p (r : res T) : without_place (at_place p r) = r.
Proof. now destruct r. Qed.
Lemma forget_bind {T U} (m : tried T) (f : T -> tried U) :
  without_place (tried_bind m f) = bind (without_place m) (fun x => without_place (f x)).
Proof. now destruct m. Qed.
Lemma forget_if {T} (c : bool) (x y : tried T) : without_place (if c then x else y) = if c then without_place x else without_place y.
Proof. now destruct c. Qed.
Lemma bind_ext {T U} (m m' : res T) (f f' : T -> res U) : m = m' -> (forall x, f x = f' x) -> bind m f = bind m' f'.
Proof. intros -> H. destruct m'; [apply H|reflexivity|reflexivity]. Qed.

Lemma forget_loop {X Y} (tstep : X -> tried (X + Y)) (step : X -> res (X + Y)) :
  (forall s, without_place (tstep s) = step s) -> forall k s, without_place (tried_loop tstep k s) = loop step k s.
Proof.
  intros H k. induction k as [|k IH]; intros s; cbn [tried_loop loop]; [apply H|].
  rewrite forget_bind. apply bind_ext; [apply IH|]. intros [s'|r]; [apply IH|reflexivity].
Qed.
Lemma forget_while {X Y} (tstep : X -> tried (X + Y)) (step : X -> res (X + Y)) s :
  (forall s, without_place (tstep s) = step s) -> without_place (tried_while tstep s) = while step s.
Proof.
  intros H. unfold tried_while, while. rewrite forget_bind. apply bind_ext; [now apply forget_loop|]. now intros [s'|r].
Qed.

Section Step.
  Context `{R : Rust} {A : Type} `{I : IpAddress A}.
  Lemma forget_step (last : A) st : without_place (tried_step last st) = derange_step last st.
  Proof.
    destruct st as [[first cur] ret]. unfold tried_step, derange_step.
    destruct (aleb first last); [|reflexivity].
    rewrite forget_bind, forget_at. apply bind_ext; [reflexivity|]. intros p.
    rewrite forget_bind, forget_at. apply bind_ext; [reflexivity|]. intros q.
    rewrite forget_bind, forget_at. apply bind_ext; [reflexivity|]. intros lg.
    rewrite forget_bind. apply bind_ext.
    - destruct (negb _); [reflexivity|]. rewrite forget_bind, forget_at. now apply bind_ext.
    - intros [|]; [|reflexivity].
      rewrite forget_bind, forget_at. apply bind_ext; [reflexivity|]. intros nx.
      rewrite forget_bind, forget_at. apply bind_ext; [reflexivity|]. intros f.
      rewrite forget_bind, forget_at. now apply bind_ext.
  Qed.
  Lemma forget_range (a b : A) : without_place (tried_range a b) = range_to_subnets a b.
  Proof.
    unfold tried_range, range_to_subnets. rewrite forget_bind, forget_at. apply bind_ext; [reflexivity|]. intros n.
    apply forget_while. intros s. apply forget_step.
  Qed.
End Step.

(** Printing. *)
Definition plainly {T} (m : trial T) : io T := (fst m, without_place (snd m)).
Lemma plainly_bind {T U} (m : trial T) (f : T -> trial U) :
  plainly (trial_bind m f) = io_bind (plainly m) (fun x => plainly (f x)).
Proof. destruct m as [es r]. unfold plainly, trial_bind, io_bind. cbn [fst snd]. now destruct r. Qed.
Lemma plainly_io {T} (m : io T) : plainly (io_elsewhere m) = m.
Proof. destruct m as [es r]. unfold plainly, io_elsewhere. cbn [fst snd]. now rewrite forget_at. Qed.
Lemma plainly_elsewhere {T} (r : res T) : plainly (elsewhere r) = io_lift r.
Proof. unfold plainly, elsewhere, io_lift. cbn [fst snd]. now rewrite forget_at. Qed.
Lemma plainly_lift {T} (r : tried T) : plainly (trial_lift r) = io_lift (without_place r).
Proof. reflexivity. Qed.
Lemma io_bind_ext {T U} (m m' : io T) (f f' : T -> io U) : m = m' -> (forall x, f x = f' x) -> io_bind m f = io_bind m' f'.
Proof. intros -> H. unfold io_bind. destruct (snd m'); [now rewrite H|reflexivity|reflexivity]. Qed.

Ltac pl := rewrite plainly_bind; rewrite ?plainly_io, ?plainly_elsewhere, ?plainly_lift; apply io_bind_ext; [reflexivity|intros ?].

Section Program.
  Context `{R : Rust} `{T : Terminal}.
  Lemma plainly_derange args : plainly (tried_derange args) = derange args.
  Proof.
    destruct args as [|a0 [|a1 [|a2 [|a3 [|a4 args]]]]]; try (cbn [tried_derange derange]; now pl).
    cbn [tried_derange derange]. pl. destruct x as [one|e]; [|now pl]. pl. destruct x as [other|e]; [|now pl].
    destruct (negb _); [now pl|]. rewrite plainly_bind. apply io_bind_ext; [|reflexivity].
    destruct one, other; try reflexivity; rewrite plainly_bind, plainly_lift, forget_range; (apply io_bind_ext; [reflexivity|intros l; apply plainly_io]).
  Qed.

  Lemma plainly_output {A : Type} `{I : IpAddress A} (n : network A) cs out :
    plainly (tried_output_split n cs out) = output_split n cs out.
  Proof.
    unfold tried_output_split, output_split. pl. pl. pl. pl. destruct x2 as [l|]; [|now pl].
    pl. pl. pl. rewrite plainly_bind. apply io_bind_ext; [|reflexivity].
    destruct (negb _); [apply plainly_io|]. pl. destruct x5 as [nx|]; [|reflexivity].
    pl. pl. rewrite plainly_bind, plainly_lift, forget_range. apply io_bind_ext; [reflexivity|intros l'; apply plainly_io].
  Qed.

  Lemma plainly_split args : plainly (tried_split args) = Main.split args.
  Proof.
    destruct args as [|a0 [|a1 [|a2 [|a3 args]]]]; try (cbn [tried_split Main.split]; now pl).
    cbn [tried_split Main.split]. destruct (parse_host_counts _ _) as [cs|m]; [|now pl].
    pl. destruct x as [[a n|a n]|e]; [apply plainly_output|apply plainly_output|now pl].
  Qed.

  Lemma plainly_do_main args : plainly (tried_do_main args) = do_main args.
  Proof.
    destruct args as [|a0 [|a1 args]]; try (cbn [tried_do_main do_main]; now pl).
    cbn [tried_do_main do_main].
    repeat (match goal with |- plainly (if ?c then _ else _) = _ => destruct c end;
      [first [apply plainly_io|apply plainly_derange|apply plainly_split|now pl]|]).
    apply plainly_io.
  Qed.
End Program.

Lemma c99_same_run : forall (R : Rust) (T : Terminal) (args : list str),
  (fst (tried_do_main args), without_place (snd (tried_do_main args))) = do_main args.
Proof. intros R T args. apply plainly_do_main. Qed.

Lemma c99_same_end : forall (U : Unicode) (R : Rust) (T : Terminal) (args : list str),
  without_place (tried_main args) = ended (main args).
Proof.
  intros U R T args. unfold tried_main, main. destruct (forallb is_utf8 args); [|reflexivity].
  unfold run_of. rewrite <- plainly_do_main. reflexivity.
Qed.

(** ** Places in loops *)
Lemma tried_loop_place {X Y} (tstep : X -> tried (X + Y)) (Inv : X -> Prop) (Pan : place -> Prop) :
  (forall s, Inv s -> match tstep s with Fine (inl s') => Inv s' | Panicked p => Pan p | _ => True end) ->
  forall k s, Inv s -> match tried_loop tstep k s with Fine (inl s') => Inv s' | Panicked p => Pan p | _ => True end.
Proof.
  intros H k. induction k as [|k IH]; intros s Hs; cbn [tried_loop]; [now apply H|].
  pose proof (IH s Hs) as K. destruct (tried_loop tstep k s) as [[s'|r]|p|]; cbn [tried_bind]; try assumption; try exact Logic.I.
  now apply IH.
Qed.
Lemma tried_while_place {X Y} (tstep : X -> tried (X + Y)) (Inv : X -> Prop) (Pan : place -> Prop) s :
  (forall s, Inv s -> match tstep s with Fine (inl s') => Inv s' | Panicked p => Pan p | _ => True end) ->
  Inv s -> forall p, tried_while tstep s = Panicked p -> Pan p.
Proof.
  intros H Hs p. unfold tried_while. pose proof (tried_loop_place tstep Inv Pan H fuel_doublings s Hs) as K.
  destruct (tried_loop tstep fuel_doublings s) as [[s'|r]|q|]; cbn [tried_bind]; try discriminate. intros E. congruence.
Qed.

(** The state in which a loop panics. *)
Lemma reaches_trans {X Y} (step : X -> res (X + Y)) s s' s'' : reaches step s s' -> reaches step s' s'' -> reaches step s s''.
Proof. intros H K. induction H as [s|s t s' E H IH]; [exact K|]. eapply reaches_next; [exact E|now apply IH]. Qed.
Lemma loop_states {X Y} (step : X -> res (X + Y)) k : forall s,
  match loop step k s with
  | Ret (inl s') => reaches step s s'
  | Panic => exists s', reaches step s s' /\ step s' = Panic
  | _ => True
  end.
Proof.
  induction k as [|k IH]; intros s; cbn [loop].
  - destruct (step s) as [[s'|r]| |] eqn:E; try exact Logic.I.
    + eapply reaches_next; [exact E|apply reaches_here].
    + exists s. split; [apply reaches_here|exact E].
  - pose proof (IH s) as K. destruct (loop step k s) as [[s'|r]| |]; cbn [bind]; try exact Logic.I; [|exact K].
    specialize (IH s'). destruct (loop step k s') as [[s''|r]| |]; try exact Logic.I.
    + eapply reaches_trans; eassumption.
    + destruct IH as (t & H1 & H2). exists t. split; [|exact H2]. eapply reaches_trans; eassumption.
Qed.
Lemma while_panic_state {X Y} (step : X -> res (X + Y)) (Inv : X -> Prop) s :
  (forall s s', Inv s -> step s = Ret (inl s') -> Inv s') -> Inv s -> while step s = Panic ->
  exists s', reaches step s s' /\ Inv s' /\ step s' = Panic.
Proof.
  intros H Hs. unfold while. pose proof (loop_states step fuel_doublings s) as K.
  destruct (loop step fuel_doublings s) as [[s'|r]| |]; cbn [bind]; try discriminate. intros _.
  destruct K as (t & K & E). exists t. split; [exact K|]. split; [|exact E].
  clear -H Hs K. induction K as [s|s s' t E K IH]; [exact Hs|]. apply IH. eapply H; eassumption.
Qed.

Section Places.
  Context `{R : Rust} {A : Type} `{I : IpAddress A} `{L : !Laws A}.
  Notation WN := (N.of_nat W).

  Lemma step_next (last : A) first (cur : network A) ret q p :
    okA last -> okA first -> cidr cur -> cidr_prefix cur = Some q -> q <> 0 ->
    tried_step last (first, cur, ret) = Panicked p -> p = AtNext.
  Proof.
    intros Hl Hf Hc Eq Hq0. cbn [tried_step]. destruct (aleb first last); [|discriminate].
    destruct (cidr_some cur Hc) as (q' & Eq' & Hq & Es). rewrite Eq in Eq'. injection Eq' as <-. rewrite Eq. cbn [unwrap at_place tried_bind].
    unfold usize_sub. rewrite (proj2 (N.ltb_ge _ _)) by lia. cbn [at_place tried_bind].
    destruct (with_prefix_cidr first (q - 1) Hf) as (lg & -> & Hlg & _); [lia|]. cbn [at_place tried_bind].
    destruct (last_addr_spec lg (proj1 Hlg)) as (la & -> & _). cbn [at_place tried_bind].
    pose proof (next_base_cidr cur Hc) as Sn.
    assert (K : (next <~ at_place Elsewhere (next_subnet_base_addr cur) ;;
        first_addr <~ at_place AtNext (unwrap next) ;;
        new_subnet <~ at_place Elsewhere (new_with_prefix first_addr (N.of_nat (byte_count last * 8))) ;;
        Fine (inl (first_addr, new_subnet, ret ++ [cur])) : tried ((A * network A * list (network A)) + list (network A))) = Panicked p -> p = AtNext).
    { destruct (v (base_addr cur) + size cur <? 2 ^ WN).
      - destruct Sn as (a & -> & Ha & _). cbn [unwrap at_place tried_bind].
        destruct (full_prefix last a Ha) as (n & -> & _). discriminate.
      - rewrite Sn. cbn [unwrap at_place tried_bind]. congruence. }
    destruct (negb _); cbn [tried_bind]; [exact K|]. destruct (agtb la last); [exact K|discriminate].
  Qed.

  Lemma range_next a b p : okA a -> okA b -> 0 < N.min (v a) (v b) -> tried_range a b = Panicked p -> p = AtNext.
  Proof.
    intros Ha Hb Hx. unfold tried_range.
    destruct (amax_v a b Ha Hb) as [H2 E2].
    destruct (derange_start a b Ha Hb) as (cur & -> & Hi & _ & _). cbn [at_place tried_bind]. cbv zeta.
    apply (tried_while_place _ (derange_inv (amax a b) (N.min (v a) (v b))) (fun p => p = AtNext)); [|exact Hi].
    clear cur Hi p. intros s Hs.
    pose proof (derange_step_ok (amax a b) (N.min (v a) (v b)) H2 (or_introl Hx) s Hs) as K.
    rewrite <- forget_step in K. destruct (tried_step (amax a b) s) as [[s'|r]|p|] eqn:E; cbn [without_place] in K; try exact Logic.I.
    - apply K.
    - destruct s as [[first cur] ret]. destruct Hs as (Hf & Ht & _ & Hc & Eb & Hle & Hsz).
      destruct (cidr_some cur Hc) as (q & Eq & Hq & Es). apply (step_next (amax a b) first cur ret q p H2 Hf Hc Eq); [|exact E].
      intros ->. rewrite N.sub_0_r in Es. apply tiles_le in Ht. pose proof (v_lt first). pose proof (v_lt (amax a b)).
      destruct (N.eq_dec (v first) (v (amax a b) + 1)) as [X|X]; [|specialize (Hsz ltac:(lia)); lia].
      cbn [tried_step] in E. rewrite aleb_spec in E by assumption. rewrite (proj2 (N.leb_gt _ _)) in E by lia. discriminate.
  Qed.

  Lemma range_prefix a b p : okA a -> okA b -> N.min (v a) (v b) = 0 -> N.max (v a) (v b) + 1 = 2 ^ WN ->
    tried_range a b = Panicked p -> p = AtPrefix.
  Proof.
    intros Ha Hb Hlo Hhi. unfold tried_range.
    destruct (amax_v a b Ha Hb) as [H2 E2]. destruct (amin_v a b Ha Hb) as [H1 E1].
    destruct (full_prefix (amax a b) (amin a b) H1) as (cur & -> & Hc & Eb & Es & Ep).
    cbn [at_place tried_bind]. cbv zeta.
    destruct overflow_checks eqn:Hoc.
    - apply (tried_while_place _ (fun st => let '(first, cur, _) := st in okA first /\ v first = 0 /\ cidr cur) (fun p => p = AtPrefix)).
      + clear cur Hc Eb Es Ep p. intros [[first cur] ret] (Hf & Hf0 & Hc). cbn [tried_step].
        rewrite aleb_spec, Hf0 by assumption. rewrite (proj2 (N.leb_le _ _)) by lia.
        destruct (cidr_some cur Hc) as (p & Ep & Hp & Es). rewrite Ep. cbn [unwrap at_place tried_bind].
        unfold usize_sub. destruct (N.ltb_spec p 1) as [Hp1|Hp1]; [rewrite Hoc; reflexivity|].
        cbn [at_place tried_bind]. destruct (with_prefix_cidr first (p - 1) Hf) as (lg & -> & Hlg & Mlg & Eplg & Eslg & Eblg); [lia|].
        cbn [at_place tried_bind]. rewrite Hf0, N.sub_0_l in Eblg. rewrite aeqb_v, Hf0, Eblg by (assumption || apply Hlg).
        cbn [N.eqb negb]. destruct (last_addr_spec lg (proj1 Hlg)) as (la & -> & Hla & _). cbn [at_place tried_bind].
        unfold agtb. rewrite altb_spec by assumption. pose proof (v_lt la).
        rewrite (proj2 (N.ltb_ge _ _)) by lia. auto.
      + split; [assumption|]. split; [congruence|assumption].
    - intros E. exfalso. apply (f_equal without_place) in E. cbn [without_place] in E.
      rewrite (forget_while _ (derange_step (amax a b)) _ (forget_step (amax a b))) in E.
      assert (Htop : v (amax a b) + 1 = 2 ^ WN) by lia.
      rewrite (while_forever _ (stuck (amax a b)) _ (derange_stuck _ H2 Htop Hoc)) in E; [discriminate|].
      cbn [stuck]. rewrite E1. eauto.
  Qed.

  (** ** What has been found when the loop panics *)
  Lemma panic_state (last : A) x first cur ret :
    okA last -> v last + 1 = 2 ^ WN -> 0 < x -> okA first -> tiles x ret (v first) -> cidr cur -> v (base_addr cur) = v first ->
    (v first < 2 ^ WN -> v first + size cur <= 2 ^ WN) -> derange_step last (first, cur, ret) = Panic ->
    greedy (2 ^ WN) cur /\ v first + size cur = 2 ^ WN.
  Proof.
    intros H2 Hy Hx Hf Ht Hc Eb Hsz Ep.
    cbn [derange_step] in Ep. rewrite aleb_spec in Ep by assumption.
      destruct (N.leb_spec (v first) (v last)) as [Hfl|Hfl]; [|discriminate].
      specialize (Hsz ltac:(lia)).
      destruct (cidr_some cur Hc) as (p & Epp & Hp & Es). rewrite Epp in Ep. cbn [unwrap bind] in Ep.
      pose proof (tiles_le _ _ _ Ht) as Hx0. pose proof (size_pos cur) as Hpos.
      assert (Hp0 : p <> 0).
      { intros ->. rewrite N.sub_0_r in Es. lia. }
      unfold usize_sub in Ep. rewrite (proj2 (N.ltb_ge _ _)) in Ep by lia. cbn [bind] in Ep.
      destruct (with_prefix_cidr first (p - 1) Hf) as (lg & El & Hlg & Mlg & Eplg & Eslg & Eblg); [lia|]. rewrite El in Ep.
      cbn [bind] in Ep.
      assert (E2' : 2 ^ (WN - (p - 1)) = 2 * size cur).
      { rewrite Es. rewrite <- N.pow_succ_r'. f_equal. lia. }
      rewrite E2' in *. rewrite aeqb_v in Ep by (assumption || apply Hlg).
      destruct (last_addr_spec lg (proj1 Hlg)) as (la & Ela & Hla & _).
      destruct (last_addr_value lg la Hlg Ela) as [_ Vla].
      pose proof (next_base_cidr cur Hc) as Sn. rewrite Eb in Sn.
      assert (Push : (next <- next_subnet_base_addr cur ;; first_addr <- unwrap next ;;
               new_subnet <- new_with_prefix first_addr (N.of_nat (byte_count last * 8)) ;;
               Ret (inl (first_addr, new_subnet, ret ++ [cur])) : res ((A * network A * list (network A)) + list (network A))) = Panic ->
               v first + size cur = 2 ^ WN).
      { destruct (N.ltb_spec (v first + size cur) (2 ^ WN)) as [Hlt|Hge]; [|lia].
        destruct Sn as (c & -> & Hc' & _). cbn [unwrap bind]. destruct (full_prefix last c Hc') as (n & -> & _). discriminate. }
      unfold greedy. rewrite Eb. destruct (N.eqb_spec (v (base_addr lg)) (v first)) as [Eal|Eal]; cbn [negb] in Ep.
      - rewrite Ela in Ep. cbn [bind] in Ep. unfold agtb in Ep. rewrite altb_spec in Ep by assumption.
        destruct (N.ltb_spec (v last) (v la)) as [Hb'|Hb']; [|discriminate].
        split; [|now apply Push]. right. rewrite Vla, Eal, Eslg in Hb'. clear -Hb' Hy Hpos. lia.
      - cbn [bind] in Ep. split; [|now apply Push]. left. rewrite Eblg in Eal. intros C. rewrite C, N.sub_0_r in Eal. now apply Eal.
  Qed.

  Lemma range_found a b : okA a -> okA b -> 0 < N.min (v a) (v b) -> N.max (v a) (v b) + 1 = 2 ^ WN ->
    exists last start first cur found,
      range_to_subnets a b = while (derange_step last) start /\ reaches (derange_step last) start (first, cur, found) /\
      derange_step last (first, cur, found) = Panic /\
      tiles (N.min (v a) (v b)) (found ++ [cur]) (2 ^ WN) /\ Forall (greedy (2 ^ WN)) (found ++ [cur]).
  Proof.
    intros Ha Hb Hx Hy. destruct (amax_v a b Ha Hb) as [H2 E2].
    destruct (derange_start a b Ha Hb) as (cur0 & E0 & Hi & Hm & _).
    pose proof (derange_spec a b Ha Hb) as D. cbv zeta in D. specialize (D (or_introl Hx)). rewrite (proj2 (N.ltb_ge (N.max (v a) (v b) + 1) (2 ^ WN))) in D by lia. cbv iota in D.
    assert (Er : range_to_subnets a b = while (derange_step (amax a b)) (amin a b, cur0, [])).
    { unfold range_to_subnets. cbv zeta. rewrite E0. reflexivity. }
    rewrite Er in D. clear E0. revert D Er E2 H2 Hi. generalize (range_to_subnets a b). intros rng D Er E2 H2 Hi.
    set (x := N.min (v a) (v b)) in *. set (last := amax a b) in *.
    destruct (while_panic_state (derange_step last) (derange_inv last x) (amin a b, cur0, [])) as ([[first cur] ret] & Hr & Hs & Ep).
    { intros s s' Hs E. pose proof (derange_step_ok last x H2 (or_introl Hx) s Hs) as K. rewrite E in K. apply K. }
    { exact Hi. }
    { exact D. }
    exists last, (amin a b, cur0, []), first, cur, ret. split; [exact Er|]. split; [exact Hr|]. split; [exact Ep|].
    destruct Hs as (Hf & Ht & Hg & Hc & Eb & Hle & Hsz). rewrite E2, Hy in Hg, Hle, Hsz.
    destruct (panic_state last x first cur ret H2 ltac:(lia) Hx Hf Ht Hc Eb Hsz Ep) as [K1 K2]. split; [|apply Forall_app; auto].
    rewrite <- K2. now apply tiles_snoc.
  Qed.
End Places.

Lemma placed_range (R : Rust) {F : family} (a b : addr F) : valid a -> valid b -> N.max (value a) (value b) = top F ->
  tried_range a b = if 0 <? N.min (value a) (value b) then Panicked AtNext else if overflow_checks then Panicked AtPrefix else Endless.
Proof.
  intros Va Vb E. pose proof (range_top R a b Va Vb E) as K. rewrite <- forget_range in K.
  pose proof (proj1 (valid_ok a) Va) as Oa. pose proof (proj1 (valid_ok b) Vb) as Ob.
  destruct (N.ltb_spec 0 (N.min (value a) (value b))) as [H|H].
  - rewrite Bool.orb_true_r in K. destruct (tried_range a b) as [l|p|] eqn:Er; try discriminate K. f_equal.
    apply (range_next a b p Oa Ob); [|exact Er]. now rewrite !value_v.
  - rewrite Bool.orb_false_r in K. destruct overflow_checks; destruct (tried_range a b) as [l|p|] eqn:Er; try discriminate K; [|reflexivity].
    f_equal. apply (range_prefix a b p Oa Ob); [| |exact Er]; rewrite !value_v by assumption; [lia|].
    rewrite <- width_W, E. unfold top. pose proof (pow2_pos (width F)). lia.
Qed.

Lemma c99_range : forall (R : Rust) (F : family) (a b : addr F), valid a -> valid b ->
  (N.max (value a) (value b) <> top F -> exists l, tried_range a b = Fine l /\ range_to_subnets a b = Ret l) /\
  (N.max (value a) (value b) = top F ->
     tried_range a b =
       if 0 <? N.min (value a) (value b) then Panicked AtNext
       else if overflow_checks then Panicked AtPrefix else Endless).
Proof.
  intros R F a b Va Vb. split; [|now apply placed_range].
  intros H. destruct (proj2 (c37_returns_iff R F a b Va Vb) H) as (l & E). exists l. split; [|exact E].
  rewrite <- forget_range in E. destruct (tried_range a b); try discriminate. cbn [without_place] in E. congruence.
Qed.

Lemma c99_lost : forall (R : Rust) (F : family) (a b : addr F), valid a -> valid b ->
  N.max (value a) (value b) = top F -> 0 < N.min (value a) (value b) ->
  exists (last : addr F) start first (current : net F) (found : list (net F)),
    range_to_subnets a b = while (derange_step last) start /\
    reaches (derange_step last) start (first, current, found) /\
    derange_step last (first, current, found) = Panic /\
    makes_up (F := F) (found ++ [current]) (N.min (value a) (value b)) (top F) /\
    forall l : list (net F), makes_up l (N.min (value a) (value b)) (top F) -> (List.length (found ++ [current]) <= List.length l)%nat.
Proof.
  intros R F a b Va Vb E Hx. pose proof (proj1 (valid_ok a) Va) as Oa. pose proof (proj1 (valid_ok b) Vb) as Ob.
  pose proof (pow2_pos (width F)) as Hpos.
  assert (Etop : top F + 1 = 2 ^ N.of_nat (@W (addr F) _ _)) by (rewrite <- width_W; unfold top; lia).
  destruct (range_found a b Oa Ob) as (last & start & first & cur & found & Er & Hr & Ep & Ht & Hg).
  { now rewrite !value_v. }
  { rewrite !value_v by assumption. now rewrite E. }
  rewrite !value_v in Ht by assumption. rewrite <- Etop in Ht, Hg. set (l := found ++ [cur]) in *.
  exists last, start, first, cur, found. split; [exact Er|]. split; [exact Hr|]. split; [exact Ep|].
  cut (makes_up (F := F) l (N.min (value a) (value b)) (top F) /\
       forall l' : list (net F), makes_up l' (N.min (value a) (value b)) (top F) -> (List.length l <= List.length l')%nat); [exact (fun K => K)|].
  clearbody l. clear Er Hr Ep found cur first start last. pose proof (tiles_cidr _ _ _ Ht) as Hc.
  split.
  - split; [now apply cidr_iff_list|]. rewrite Forall_forall in Hc. split.
    + intros c Vc. pose proof (tiles_mem _ _ _ c Ht) as M. rewrite value_v in M by assumption.
      split.
      * intros Hin. destruct M as [M _]. destruct M as (n & Hn & Hm); [lia|].
        exists n. split; [assumption|]. apply member_cidr; auto.
      * intros (n & Hn & Hm). apply member_cidr in Hm; [|auto|assumption].
        assert (N.min (value a) (value b) <= value c < top F + 1) by (apply M; eauto). lia.
    + pose proof (tiles_sorted _ _ _ Ht) as St. clear Ht Hg. induction St as [|n l St IH Hf]; [constructor|].
      rewrite Forall_forall in Hf. constructor.
      * apply IH. intros; apply Hc; now right.
      * apply Forall_forall. intros n' Hn' x y Vx Vy Mx My.
        pose proof (Hc n (or_introl eq_refl)) as C1. pose proof (Hc n' (or_intror Hn')) as C2.
        apply member_cidr in Mx; [|assumption|assumption]. apply member_cidr in My; [|assumption|assumption].
        apply mem_interval in Mx; [|assumption]. apply mem_interval in My; [|assumption].
        rewrite (value_v x Vx) in Mx. rewrite (value_v y Vy) in My. specialize (Hf n' Hn'). lia.
  - intros l' (Hl' & Hc' & _). apply cidr_iff_list in Hl'. eapply maximal_shortest.
    + eapply tiles_NoDup, Ht.
    + eapply greedy_maximal; eassumption.
    + assumption.
    + now apply covers_spec.
Qed.

(** ** Whole runs *)
Lemma snd_trial {T U} (m : trial T) (f : T -> trial U) x : snd m = Fine x -> snd (trial_bind m f) = snd (f x).
Proof. intros E. unfold trial_bind. now rewrite E. Qed.
Lemma snd_trial_io {T U} (m : io T) (f : T -> trial U) x : snd m = Ret x -> snd (trial_bind (io_elsewhere m) f) = snd (f x).
Proof. intros E. apply snd_trial. cbn [io_elsewhere snd]. now rewrite E. Qed.
Lemma snd_trial_else {T U} (r : res T) (f : T -> trial U) x : r = Ret x -> snd (trial_bind (elsewhere r) f) = snd (f x).
Proof. intros ->. now apply snd_trial. Qed.
Lemma snd_trial_panic {T U} (m : trial T) (f : T -> trial U) p : snd m = Panicked p -> snd (trial_bind m f) = Panicked p.
Proof. intros E. unfold trial_bind. now rewrite E. Qed.
Lemma snd_trial_endless {T U} (m : trial T) (f : T -> trial U) : snd m = Endless -> snd (trial_bind m f) = Endless.
Proof. intros E. unfold trial_bind. now rewrite E. Qed.

Lemma snd_trial_line {U} (l : str) (f : unit -> trial U) : snd (trial_bind (io_elsewhere (println l)) f) = snd (f tt).
Proof. now apply snd_trial_io. Qed.

Lemma derange_place (R : Rust) (T : Terminal) (F : family) prog w s t (a b : addr F) :
  In w derange_words -> address_text F s a -> address_text F t b -> N.max (value a) (value b) = top F ->
  snd (tried_do_main [prog; w; s; t]) =
    if 0 <? N.min (value a) (value b) then Panicked AtNext else if overflow_checks then Panicked AtPrefix else Endless.
Proof.
  intros Hw Ha Hb E. pose proof (addr_valid F s a Ha) as Va. pose proof (addr_valid F t b Hb) as Vb.
  pose proof (placed_range R a b Va Vb E) as K.
  assert (tried_do_main [prog; w; s; t] = tried_derange [prog; w; s; t]) as ->.
  { unfold derange_words in Hw. destruct Hw as [<-|[<-|[]]]; reflexivity. }
  cbn [tried_derange]. apply c34_address in Ha, Hb. rewrite (snd_trial_else _ _ _ Ha). rewrite (snd_trial_else _ _ _ Hb).
  destruct F; cbn [parsed_of version N.eqb Pos.eqb negb].
  - change (@tried_range R (addr V4) (addr_ops V4) a b) with (@tried_range R ipv4 ipv4_ops a b) in K. rewrite K.
    destruct (0 <? _); [reflexivity|]. now destruct overflow_checks.
  - change (@tried_range R (addr V6) (addr_ops V6) a b) with (@tried_range R ipv6 ipv6_ops a b) in K. rewrite K.
    destruct (0 <? _); [reflexivity|]. now destruct overflow_checks.
Qed.

Lemma split_place (R : Rust) (T : Terminal) (F : family) (n : net F) (cs : list Z) (h : addr F) out :
  wf_net n -> cs <> [] -> SpecIO.prints out -> highest n h -> split_inside n cs -> N.max (run_start n cs + total cs) (value h) = top F ->
  snd (tried_output_split n cs out) = Panicked AtNext.
Proof.
  intros Hn Hne Hp Hla Hi Htop. set (y := run_start n cs + total cs) in *.
  assert (Hy : y < 2 ^ width F). { pose proof (proj1 Hi) as X. fold y in X. unfold top in X. pose proof (pow2_pos (width F)). lia. }
  destruct (split_parts R F n cs Hn) as [P1 _]. destruct (P1 Hy) as (r & ns0 & E & _).
  destruct (split_some R F n cs r Hn E) as (Hlt & ns & Pm & Ht & _ & Hz). fold y in Ht.
  assert (Hend : 0 < y) by (pose proof (largest_total cs Hne); pose proof (pow2_pos (largest cs)); unfold y; lia).
  pose proof (tiles_cidr _ _ _ Ht) as Hc.
  assert (Hcr : Forall cidr r).
  { rewrite Forall_forall in *. intros m Hm. apply Hc. apply (Permutation_in _ Pm Hm). }
  destruct (map_res_spec last_addr_of_subnet (fun m a => okA a /\ v a = v (base_addr m) + size m - 1) r) as (lasts & El & Hl).
  { rewrite Forall_forall in *. intros m Hm. specialize (Hcr m Hm). destruct (last_addr_spec m (proj1 Hcr)) as (a & Ea & _).
    exists a. split; [assumption|]. now apply last_addr_value. }
  assert (Hns : ns <> []).
  { intros ->. apply Permutation_sym, Permutation_nil in Pm. subst r. inversion Hz; subst. congruence. }
  destruct (max_addr_spec lasts (y - 1)) as (mu & Em & Vmu & Emu).
  { destruct (tiles_last ns _ _ Ht Hns) as (m & Hm & Ey). apply (Permutation_in _ (Permutation_sym Pm)) in Hm.
    clear -Hl Hm Ey. induction Hl as [|m' a r lasts (Oa & Ea) Hl IH]; [contradiction|].
    destruct Hm as [->|Hm].
    - exists a. split; [now left|]. rewrite <- value_v by now apply valid_ok. congruence.
    - destruct (IH Hm) as (b & Hb & Eb). exists b. split; [now right|assumption]. }
  { intros a Ha. assert (X : exists m, In m r /\ okA a /\ v a = v (base_addr m) + size m - 1).
    { clear -Hl Ha. induction Hl as [|m b r lasts (Ob & Eb) Hl IH]; [contradiction|]. destruct Ha as [<-|Ha].
      - exists m. split; [now left|auto].
      - destruct (IH Ha) as (m' & Hm' & X). exists m'. split; [now right|assumption]. }
    destruct X as (m & Hm & Oa & Ea). apply valid_ok in Oa. split; [assumption|]. rewrite <- value_v by assumption.
    destruct (tiles_bounds _ _ _ m Ht (Permutation_in _ Pm Hm)). lia. }
  assert (Omu : okA mu) by now apply valid_ok.
  destruct (add_offset_1 mu Omu) as [(_ & nx & Enx & Onx & Vnx)|[Hov _]].
  2:{ exfalso. rewrite <- width_W, value_v in Hov by assumption. lia. }
  apply valid_ok in Onx. rewrite !value_v in Vnx by assumption.
  destruct (c25_last_addr R F n Hn) as (la' & Ela & Hla').
  rewrite (highest_unique n la' h Hla' Hla) in Ela.
  destruct Hi as (_ & x & Vx & Mx & Ex). fold y in Ex.
  assert (Hmx : mu = x). { apply value_inj; try assumption. lia. } subst x.
  assert (Hcn : contains n mu = true) by (now apply (c19_contains R F n mu Hn Vmu)).
  unfold tried_output_split. rewrite snd_trial_line.
  rewrite (snd_trial_io (out n None) _ tt) by (apply Hp; [exact Hn|discriminate]).
  rewrite snd_trial_line. rewrite (snd_trial_else _ _ _ E).
  rewrite (snd_trial_io _ _ tt).
  2:{ rewrite (io_for_events (combine cs r) _
        (fun cm : Z * net F => [line (lit "Subnet for " ++ fmt_Z (fst cm) ++ lit " hosts:")] ++
                      fst (out (snd cm) None) ++ [line []])); [reflexivity|].
      intros [c m] Hcm. rewrite io_println, (io_bind_ret (out m None) tt); [reflexivity|].
      apply Hp; [|discriminate]. apply in_combine_r in Hcm. rewrite Forall_forall in Hcr. apply wf_okN. now apply Hcr. }
  rewrite (snd_trial_else _ _ _ El). rewrite Em. rewrite (snd_trial_else (unwrap (Some mu)) _ mu eq_refl).
  rewrite Hcn. cbn [negb]. apply snd_trial_panic. rewrite (snd_trial_else _ _ _ Enx). rewrite snd_trial_line.
  rewrite (snd_trial_else _ _ _ Ela). apply snd_trial_panic. cbn [trial_lift snd].
  assert (Vny : value nx = y) by lia.
  rewrite (placed_range R nx h Onx (proj1 Hla)) by now rewrite Vny.
  assert (0 < N.min (value nx) (value h)) as Hm.
  { pose proof (proj2 (proj2 Hla) mu Vmu Mx) as Hle. pose proof (largest_total cs Hne) as Hlg. pose proof (pow2_pos (largest cs)) as Hp2.
    assert (3 < top F) as H3 by (unfold top; destruct F; reflexivity). rewrite Vny.
    revert Htop Ex Hle H3 Hend. clear. intros. lia. }
  destruct (N.ltb_spec 0 (N.min (value nx) (value h))) as [_|X]; [reflexivity|lia].
Qed.

Lemma split_main_place (R : Rust) (T : Terminal) args : split_to_top args -> snd (tried_do_main args) = Panicked AtNext.
Proof.
  intros (F & prog & w & s & ss & a & n & cs & h & -> & Hw & Hc & Hs & Hi & Hh & E).
  destruct (means_wf R F s a n Hs) as [_ Wn].
  assert (cs <> []) as Hne by (destruct Hc as (Hne & H2 & _); destruct H2; congruence).
  pose proof (split_place R T F n cs h (show_of F) Wn Hne (Pf_Show.c56_printer R T F) Hh Hi E) as K.
  rewrite <- K. clear K E Hi Hh h Hne Wn.
  assert (tried_do_main (prog :: w :: s :: ss) = tried_split (prog :: w :: s :: ss)) as ->.
  { unfold split_words in Hw. destruct Hw as [<-|[<-|[]]]; reflexivity. }
  pose proof (parse_counts_all ss cs Hc) as Ep. destruct Hc as (Hn & _). destruct ss as [|s0 ss]; [congruence|].
  cbn [tried_split]. rewrite Ep. apply (parse_means R) in Hs. rewrite (snd_trial_else _ _ _ Hs). destruct F; reflexivity.
Qed.

Lemma everything_place (R : Rust) (T : Terminal) args : everything args ->
  snd (tried_do_main args) = if overflow_checks then Panicked AtPrefix else Endless.
Proof.
  intros (F & prog & w & s & t & a & b & -> & Hw & Ha & Hb & E & E0).
  rewrite (derange_place R T F prog w s t a b Hw Ha Hb E), E0. reflexivity.
Qed.
Lemma derange_main_place (R : Rust) (T : Terminal) args : derange_to_top args ->
  everything args \/ snd (tried_do_main args) = Panicked AtNext.
Proof.
  intros (F & prog & w & s & t & a & b & -> & Hw & Ha & Hb & E).
  pose proof (derange_place R T F prog w s t a b Hw Ha Hb E) as K.
  destruct (N.ltb_spec 0 (N.min (value a) (value b))) as [H|H]; [now right|].
  left. exists F, prog, w, s, t, a, b. repeat (split; [auto|]). clear -H. lia.
Qed.
Lemma other_place (R : Rust) (T : Terminal) args :
  (exists z, snd (tried_do_main args) = Fine z) \/ derange_to_top args \/ split_to_top args.
Proof.
  destruct (finishes_all R args) as [(ms & z & D & _)|H]; [|now right]. left. exists z.
  pose proof (c99_same_run R T args) as K. rewrite (D T) in K. apply (f_equal snd) in K. cbn [snd] in K.
  destruct (snd (tried_do_main args)); cbn [without_place] in K; congruence.
Qed.

Lemma c99_where : forall (R : Rust) (T : Terminal) (args : list str),
  (tried_main args = Panicked InArgs <-> ~ Forall unicode args) /\
  (tried_main args = Panicked AtPrefix <-> Forall unicode args /\ overflow_checks = true /\ everything args) /\
  (tried_main args = Panicked AtNext <->
     Forall unicode args /\ (derange_to_top args /\ ~ everything args \/ split_to_top args)) /\
  tried_main args <> Panicked Elsewhere.
Proof.
  intros R T args. unfold tried_main.
  destruct (forallb is_utf8 args) eqn:Eu.
  - apply utf8_args in Eu.
    pose proof (split_main_place R T args) as KS. pose proof (everything_place R T args) as KE.
    pose proof (derange_main_place R T args) as KD. pose proof (other_place R T args) as KO.
    assert (everything args -> derange_to_top args) as KI.
    { intros (F & prog & w & s & t & a & b & -> & Hw & Ha & Hb & E & E0). exists F, prog, w, s, t, a, b. repeat (split; [auto|]). exact E. }
    generalize dependent (snd (tried_do_main args)). intros o KS KE KD KO.
    split; [|split; [|split]].
    + split; [|now intros []]. intros ->. exfalso. destruct KO as [(z & X)|[X|X]]; [discriminate| |now apply KS in X].
      destruct (KD X) as [Y|Y]; [|discriminate]. apply KE in Y. now destruct overflow_checks.
    + split.
      * intros ->. split; [exact Eu|]. destruct KO as [(z & X)|[X|X]]; [discriminate| |now apply KS in X].
        destruct (KD X) as [Y|Y]; [|discriminate]. split; [|exact Y]. apply KE in Y. now destruct overflow_checks.
      * intros (_ & Ho & X). rewrite (KE X). now rewrite Ho.
    + split.
      * intros ->. split; [exact Eu|]. destruct KO as [(z & X)|[X|X]]; [discriminate| |now right].
        left. split; [exact X|]. intros Y. apply KE in Y. now destruct overflow_checks.
      * intros (_ & [[X N]|X]); [|now apply KS]. now destruct (KD X).
    + intros ->. destruct KO as [(z & X)|[X|X]]; [discriminate| |now apply KS in X].
      destruct (KD X) as [Y|Y]; [|discriminate]. apply KE in Y. now destruct overflow_checks.
  - assert (~ Forall unicode args) as Hu. { intros H. apply utf8_args in H. congruence. }
    split; [now split|]. split; [|split; [|discriminate]]; (split; [discriminate|now intros [X _]]).
Qed.
