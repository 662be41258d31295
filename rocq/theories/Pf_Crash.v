(** * Pf_Crash: proofs of C83 *)
From Verif Require Import RustBase Addr Net Parse Derange Split Console ShowNet Main Messages Process Spec SpecText SpecIO SpecShow SpecMain SpecProcess Demo Bits NetFacts SplitFacts.
From Verif Require Import Pf_Derange Pf_Split Pf_Netspec Pf_Net Pf_Process Pf_Main.
From Coq Require Import ZifyBool ZifyNat ZifyN.
Ltac Zify.zify_post_hook ::= idtac.

Lemma range_top (R : Rust) {F : family} (a b : addr F) : valid a -> valid b -> N.max (value a) (value b) = top F ->
  range_to_subnets a b = if overflow_checks || (0 <? N.min (value a) (value b)) then Panic else Diverge.
Proof.
  intros Va Vb E. destruct (N.ltb_spec 0 (N.min (value a) (value b))) as [H|H].
  - rewrite Bool.orb_true_r. now apply c37_top_panics.
  - rewrite Bool.orb_false_r. destruct (c37_full_range R F a b Va Vb) as [P D]; [lia|exact E|].
    destruct overflow_checks; [now apply P|]. destruct (D eq_refl) as (last & start & Ew & K). rewrite Ew.
    unfold while. destruct (K fuel_doublings) as (s & Es). rewrite Es. reflexivity.
Qed.

Lemma c83_derange : forall (R : Rust) (T : Terminal) (F : family) (prog w s t : str) (a b : addr F),
  In w derange_words -> address_text F s a -> address_text F t b -> N.max (value a) (value b) = top F ->
  do_main [prog; w; s; t] =
    ([], if overflow_checks || (0 <? N.min (value a) (value b)) then Panic else Diverge).
Proof.
  intros R T F prog w s t a b Hw Ha Hb E.
  pose proof (addr_valid F s a Ha) as Va. pose proof (addr_valid F t b Hb) as Vb.
  pose proof (range_top R a b Va Vb E) as K.
  rewrite run_derange by exact Hw. unfold derange.
  apply c34_address in Ha, Hb. rewrite Ha, io_lift_ret, Hb, io_lift_ret.
  destruct F; cbn [parsed_of version N.eqb Pos.eqb negb].
  - change (@range_to_subnets R (addr V4) (addr_ops V4) a b) with (@range_to_subnets R ipv4 ipv4_ops a b) in K. rewrite K.
    destruct (_ || _); reflexivity.
  - change (@range_to_subnets R (addr V6) (addr_ops V6) a b) with (@range_to_subnets R ipv6 ipv6_ops a b) in K. rewrite K.
    destruct (_ || _); reflexivity.
Qed.

Lemma c83_split : forall (R : Rust) (F : family) (prog w s : str) (ss : list str) (a : addr F) (n : net F) (cs : list Z) (h : addr F),
  In w split_words -> means F s a n -> counts_text ss cs -> highest n h ->
  split_inside n cs -> N.max (run_start n cs + total cs) (value h) = top F ->
  exists first r mss, described n None first /\ split_subnet n cs = Ret (Some r) /\
    Forall2 (fun e ms => described e None ms) r mss /\
    forall T : Terminal, do_main (prog :: w :: s :: ss) =
      (map (paint colors_enabled) (split_marks first cs mss ++ [says (lit "Unused networks:")]), Panic).
Proof.
  intros R F prog w s ss a n cs h Hw Hs Hc Hh Hi E.
  destruct (means_wf R F s a n Hs) as [_ Wn].
  assert (cs <> []) as Hne by (destruct Hc as (Hne & H2 & _); destruct H2; congruence).
  destruct (split_io R F n cs h Wn Hne Hh) as (first & D & _ & P). destruct (P (proj1 Hi)) as (r & mss & b & Hr & Hd & Vb & Eb & _ & Q).
  exists first, r, mss. split; [exact D|]. split; [exact Hr|]. split; [exact Hd|]. intros T.
  rewrite (split_run R T F prog w s ss a n cs Hw Hs Hc), (Q Hi T).
  rewrite range_top; [|exact Vb|apply Hh|now rewrite Eb].
  assert (0 < N.min (value b) (value h)) as Hm.
  { destruct Hi as (_ & x & Vx & Mx & Ex). pose proof (proj2 (proj2 Hh) x Vx Mx) as Hle. rewrite Eb.
    pose proof (largest_total cs Hne) as Hl. pose proof (pow2_pos (largest cs)) as Hp.
    assert (3 < top F) as Ht by (unfold top; destruct F; reflexivity).
    revert E Ex Hle Hl Hp Ht. generalize (top F) (2 ^ largest cs) (run_start n cs) (total cs) (value h) (value x).
    clear. intros. lia. }
  destruct (N.ltb_spec 0 (N.min (value b) (value h))) as [_|X]; [|lia]. rewrite Bool.orb_true_r. reflexivity.
Qed.

Lemma c83_cases : forall (R : Rust) (T : Terminal) (args : list str),
  (snd (do_main args) = Diverge <->
     overflow_checks = false /\
     exists F prog w s t (a b : addr F), args = [prog; w; s; t] /\ In w derange_words /\
       address_text F s a /\ address_text F t b /\ N.max (value a) (value b) = top F /\ N.min (value a) (value b) = 0) /\
  (snd (do_main args) = Panic <-> (derange_to_top args \/ split_to_top args) /\ snd (do_main args) <> Diverge).
Proof.
  intros R T args.
  assert (derange_to_top args -> snd (do_main args) = Panic \/
    (snd (do_main args) = Diverge /\ overflow_checks = false /\
     exists F prog w s t (a b : addr F), args = [prog; w; s; t] /\ In w derange_words /\
       address_text F s a /\ address_text F t b /\ N.max (value a) (value b) = top F /\ N.min (value a) (value b) = 0)) as KD.
  { intros (F & prog & w & s & t & a & b & -> & Hw & Ha & Hb & E).
    rewrite (c83_derange R T F prog w s t a b Hw Ha Hb E). cbn [snd].
    destruct overflow_checks; [now left|]. cbn [orb]. destruct (N.ltb_spec 0 (N.min (value a) (value b))) as [H|H]; [now left|].
    right. split; [reflexivity|]. split; [reflexivity|]. exists F, prog, w, s, t, a, b. repeat (split; [auto|]). clear - H. lia. }
  assert (split_to_top args -> snd (do_main args) = Panic) as KS.
  { intros (F & prog & w & s & ss & a & n & cs & h & -> & Hw & Hc & Hs & Hi & Hh & E).
    destruct (c83_split R F prog w s ss a n cs h Hw Hs Hc Hh Hi E) as (first & r & mss & _ & _ & _ & Q). now rewrite (Q T). }
  assert ((exists z, snd (do_main args) = Ret z) \/ derange_to_top args \/ split_to_top args) as KC.
  { destruct (finishes_all R args) as [(ms & z & D & _)|H]; [|now right]. left. exists z. now rewrite (D T). }
  split.
  - split.
    + intros H. destruct KC as [(z & E)|[E|E]]; [congruence| |apply KS in E; congruence].
      destruct (KD E) as [X|(_ & X)]; [congruence|exact X].
    + intros (Ho & F & prog & w & s & t & a & b & -> & Hw & Ha & Hb & E & E0).
      rewrite (c83_derange R T F prog w s t a b Hw Ha Hb E), Ho, E0. reflexivity.
  - split.
    + intros H. split; [|congruence]. destruct KC as [(z & E)|E]; [congruence|exact E].
    + intros [[E|E] N]; [|now apply KS]. destruct (KD E) as [X|(X & _)]; [exact X|contradiction].
Qed.

Lemma quiet_stderr (U : Unicode) c ms : quiet ms -> flat_map to_stderr (map (paint c) ms) = [].
Proof.
  intros H. induction H as [|m ms Hm H IH]; [reflexivity|]. cbn [map flat_map]. rewrite IH, app_nil_r.
  destruct m, c; try reflexivity; now destruct Hm.
Qed.
Lemma split_ends first cs mss : exists l, split_marks first cs mss = l ++ [break].
Proof.
  unfold split_marks. assert (combine cs mss = [] \/ combine cs mss <> []) as [->|H] by (destruct (combine cs mss); [now left|now right]).
  - exists (says (lit "Subnet to split:") :: first). now cbn [flat_map app].
  - destruct (exists_last H) as (l & x & ->). rewrite flat_map_app. cbn [flat_map].
    exists (says (lit "Subnet to split:") :: first ++ break ::
      flat_map (fun cm => says (lit "Subnet for " ++ fmt_Z (fst cm) ++ lit " hosts:") :: snd cm ++ [break]) l ++
      says (lit "Subnet for " ++ fmt_Z (fst x) ++ lit " hosts:") :: snd x).
    now rewrite app_nil_r, <- app_comm_cons, <- app_assoc, <- app_comm_cons, <- app_assoc, <- app_comm_cons.
Qed.

Lemma c83_process : forall (U : Unicode) (R : Rust) (T : Terminal) (args : list str),
  (forall z, ended (main args) <> Ret z) ->
  on_stderr (main args) = [] /\
  (on_stdout (main args) = [] \/
   split_to_top args /\ exists before, on_stdout (main args) = before ++ newline ++ lit "Unused networks:" ++ newline).
Proof.
  intros U R T args H. unfold main in *. destruct (forallb is_utf8 args); [|now split; [|left]].
  unfold run_of in *. destruct (do_main args) as [es r] eqn:E. cbn [ended on_stdout on_stderr] in *.
  destruct (finishes_all R args) as [(ms & z & D & _)|[X|X]].
  - rewrite (D T) in E. injection E as <- <-. now destruct (H z).
  - destruct X as (F & prog & w & s & t & a & b & -> & Hw & Ha & Hb & Et).
    rewrite (c83_derange R T F prog w s t a b Hw Ha Hb Et) in E. injection E as <- <-. now split; [|left].
  - pose proof X as (F & prog & w & s & ss & a & n & cs & h & -> & Hw & Hc & Hs & Hi & Hh & Et).
    destruct (c83_split R F prog w s ss a n cs h Hw Hs Hc Hh Hi Et) as (first & r' & mss & Df & _ & Dm & Q).
    rewrite (Q T) in E. injection E as <- <-.
    destruct (split_ends first cs mss) as (l & El). split.
    + apply (quiet_stderr U _ (split_marks first cs mss ++ [says (lit "Unused networks:")])). apply (quiet_app (split_marks first cs mss) [says (lit "Unused networks:")]); [|apply quiet_cons; [easy|apply quiet_nil]].
      unfold split_marks. apply quiet_cons; [easy|]. apply (quiet_app first); [eapply quiet_described, Df|].
      apply quiet_cons; [easy|]. apply (quiet_blocks (fun c => lit "Subnet for " ++ fmt_Z c ++ lit " hosts:")). eapply quiet_list, Dm.
    + right. split; [exact X|]. exists (flat_map to_stdout (map (paint colors_enabled) l)).
      etransitivity; [exact (f_equal (fun ms => flat_map to_stdout (map (paint colors_enabled) (ms ++ [says (lit "Unused networks:")]))) El)|].
      cbv beta. rewrite !map_app, !flat_map_app, <- app_assoc. reflexivity.
Qed.
