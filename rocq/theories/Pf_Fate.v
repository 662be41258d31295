(** * Pf_Fate: proofs for P_Fate *)
From Verif Require Import RustBase Addr BitManip Cidr Net Parse Derange Minimize Split Resize Console ShowNet Main Messages Process.
From Verif Require Import SpecIO SpecMessages SpecFate Bits Laws NetFacts SetFacts Family Order TextFacts.
From Verif Require Import Pf_Text Pf_Net Pf_Netspec Pf_Split Pf_Show Pf_Main Pf_Process Pf_Messages Pf_Runs Pf_Crash Pf_Whole Demo.
From Coq Require Import ZifyBool ZifyNat ZifyN.
Ltac Zify.zify_post_hook ::= idtac.

Lemma runs_once (R : Rust) args ms ms' r r' : runs args ms r -> runs args ms' r' -> ms = ms' /\ r = r'.
Proof.
  intros H H'. specialize (H colourful). specialize (H' colourful). rewrite H in H'. injection H' as E ->. split; [|reflexivity].
  now apply paint_list_inj.
Qed.

Definition met (R : Rust) (args : list str) (ms : list mark) (f : ending) : Prop :=
  exists ms' r, runs args ms' r /\ as_seen r = f /\ Permutation ms' ms /\ (settled args -> ms' = ms).

Lemma met_split (R : Rust) F prog w s ss (a : addr F) n cs r h first mss ms :
    In w split_words -> means F s a n -> counts_text ss cs -> placed n cs r ->
    split_inside n cs -> highest n h -> N.max (run_start n cs + total cs) (value h) = top F ->
    depicted n None first -> Forall2 (fun e ms => depicted e None ms) r mss -> split_page first cs mss ms ->
    met R (prog :: w :: s :: ss) (ms ++ [says (lit "Unused networks:")]) Crash.
Proof.
  intros Hw M Hc Hp Hi Hh Et Df Dm P. destruct (means_wf R F s a n M) as [_ Wn]. pose proof (wf_placed n cs r Hp) as Wr.
  destruct (c83_split R F prog w s ss a n cs h Hw M Hc Hh Hi Et) as (first0 & r0 & mss0 & Df0 & E0 & Dm0 & X).
  pose proof (split_placed R F n cs r0 Wn E0) as Hp0. pose proof (wf_placed n cs r0 Hp0) as Wr0.
  apply (depicted_described R) in Df; [|exact Wn|discriminate]. apply (depicted_list R) in Dm; [|exact Wr].
  pose proof (c67_described_once R F n None first first0 Wn Df Df0) as <-.
  apply split_page_marks in P; [|now apply (counts_nonneg ss)]. subst ms.
  assert (Hy' : run_start n cs + total cs <= 2 ^ width F) by (pose proof (top_pow F); pose proof (proj1 Hi); lia).
  exists (split_marks first cs mss0 ++ [says (lit "Unused networks:")]), Panic. split; [exact X|]. split; [reflexivity|]. split.
  - apply Permutation_app_tail, split_marks_perm. apply (described_perm R F cs r0 r); try assumption; [eapply Forall2_len, Hp0|eapply Forall2_len, Hp|].
    now apply (placed_perm R n).
  - intros Hs. pose proof (settled_counts prog w s ss cs Hs Hw Hc) as Nd.
    pose proof (placed_once R n cs r0 r Hy' Nd Hp0 Hp) as ->. now rewrite (described_list_same R R F r mss mss0 Wr Dm Dm0).
Qed.

Lemma c91_complete : forall (R : Rust) (args : list str) (ms : list mark) (f : ending),
  fate usize_bits overflow_checks args ms f ->
  exists ms' r, runs args ms' r /\ as_seen r = f /\ Permutation ms' ms /\ (settled args -> ms' = ms).
Proof.
  intros R args ms f H. destruct H as [args ms z H|F prog w s t a b Hw Ha Hb E Hm|F prog w s t a b Hw Ha Hb E Hm Hc|].
  - destruct (duty_done R args ms z H) as (ms' & D & P & S). exists ms', (Ret z). auto.
  - exists [], Panic. split; [|auto]. intros T. rewrite (c83_derange R T F prog w s t a b Hw Ha Hb E).
    destruct Hm as [Hm| ->]; [|reflexivity]. apply N.ltb_lt in Hm. rewrite Hm, Bool.orb_true_r. reflexivity.
  - exists [], Diverge. split; [|auto]. intros T. rewrite (c83_derange R T F prog w s t a b Hw Ha Hb E), Hc, Hm. reflexivity.
  - eapply met_split; eassumption.
Qed.

(** Every run has a fate that it meets. *)
Lemma fate_all (R : Rust) args : exists ms r, runs args ms r /\ fate usize_bits overflow_checks args ms (as_seen r).
Proof.
  destruct (answered_all R args) as [(ms & z & H & D)|[T|T]].
  - exists ms, (Ret z). split; [exact H|]. now apply fate_done.
  - destruct T as (F & prog & w & s & t & a & b & -> & Hw & Ha & Hb & E). eexists [], _. split.
    + intros T. rewrite (c83_derange R T F prog w s t a b Hw Ha Hb E). reflexivity.
    + destruct overflow_checks eqn:Hc; cbn [orb]; [apply (fate_range F prog w s t a b); auto|].
      destruct (N.ltb_spec 0 (N.min (value a) (value b))) as [L|L]; [apply (fate_range F prog w s t a b); auto|].
      apply (fate_everything F prog w s t a b); auto. now apply N.le_0_r.
  - destruct T as (F & prog & w & s & ss & a & n & cs & h & -> & Hw & Hc & M & Hi & Hh & E).
    destruct (means_wf R F s a n M) as [_ Wn].
    destruct (c83_split R F prog w s ss a n cs h Hw M Hc Hh Hi E) as (first & r & mss & Df & Er & Dm & X).
    exists (split_marks first cs mss ++ [says (lit "Unused networks:")]), Panic. split; [exact X|].
    pose proof (split_placed R F n cs r Wn Er) as Hp.
    apply (depicted_described R) in Df; [|exact Wn|discriminate]. apply (depicted_list R) in Dm; [|now apply (wf_placed n cs)].
    apply (fate_split F prog w s ss a n cs r h first mss); try assumption. apply split_page_marks; [now apply (counts_nonneg ss)|reflexivity].
Qed.

Lemma c91_sound : forall (R : Rust) (args : list str) (ms : list mark) (r : res Z),
  runs args ms r -> fate usize_bits overflow_checks args ms (as_seen r).
Proof.
  intros R args ms r H. destruct (fate_all R args) as (ms' & r' & H' & D). now destruct (runs_once R args ms ms' r r' H H') as [-> ->].
Qed.

Lemma c91_total : forall (bits : N) (checked : bool) (args : list str), 16 <= bits ->
  exists ms f, fate bits checked args ms f.
Proof.
  intros bits checked args Hw. pose (R := mk_env checked bits Hw). destruct (fate_all R args) as (ms & r & _ & D). exists ms, (as_seen r). exact D.
Qed.

Lemma c91_unique : forall (bits : N) (checked : bool) (args : list str) (ms ms' : list mark) (f f' : ending), 16 <= bits ->
  fate bits checked args ms f -> fate bits checked args ms' f' ->
  f = f' /\ Permutation ms ms' /\ (settled args -> ms = ms').
Proof.
  intros bits checked args ms ms' f f' Hw H H'. pose (R := mk_env checked bits Hw).
  destruct (c91_complete R args ms f H) as (m1 & r1 & D & <- & P & S). destruct (c91_complete R args ms' f' H') as (m2 & r2 & D' & <- & P' & S').
  destruct (runs_once R args m1 m2 r1 r2 D D') as [<- <-]. split; [reflexivity|]. split; [now rewrite <- P, <- P'|].
  intros K. now rewrite <- (S K), <- (S' K).
Qed.

Lemma c91_process : forall (U : Unicode) (R : Rust) (T : Terminal) (args : list str), Forall unicode args ->
  exists ms ls, fate usize_bits overflow_checks args ms (as_seen (ended (main args))) /\
    told (faults ms) ls /\ on_stderr (main args) = lines ls /\
    if colors_enabled then seen (on_stdout (main args)) = Some (flat_map drawn ms, Normal)
    else on_stdout (main args) = flat_map ink ms.
Proof.
  intros U R T args Ha. destruct (fate_all R args) as (ms & r & D & H).
  destruct (worded U R T args Ha) as (ls & Ht & El & _). rewrite (D T) in Ht. cbn [fst] in Ht. rewrite faults_problems in Ht.
  exists ms, ls. split; [rewrite main_run by exact Ha; cbn [ended]; now rewrite (D T)|]. split; [exact Ht|]. split; [exact El|].
  destruct colors_enabled eqn:Ec.
  - apply (c70_seen U R args ms r T); [exact D|exact Ha|exact Ec].
  - rewrite main_run by exact Ha. cbn [on_stdout]. rewrite (D T), Ec. cbn [fst].
    clear. induction ms as [|m ms IH]; cbn [map flat_map]; [reflexivity|]. rewrite IH. f_equal. now destruct m.
Qed.

Lemma as_seen_inj r r' : as_seen r = as_seen r' -> r = r'.
Proof. destruct r, r'; cbn; congruence. Qed.
Lemma duty_status (R : Rust) (T : Terminal) args z : snd (do_main args) = Ret z <-> exists ms, duty usize_bits args ms z.
Proof.
  split.
  - destruct (fate_all R args) as (ms & r & D & H). rewrite (D T). cbn [snd]. intros ->. exists ms. now inversion H.
  - intros (ms & H). destruct (duty_done R args ms z H) as (ms' & D & _). now rewrite (D T).
Qed.
Lemma c91_exit_code : forall (U : Unicode) (R : Rust) (T : Terminal) (args : list str),
  let code := exit_code (as_seen (ended (main args))) in
  (code = None <->
     Forall unicode args /\ overflow_checks = false /\
     exists F prog w s t (a b : addr F), args = [prog; w; s; t] /\ In w derange_words /\
       address_text F s a /\ address_text F t b /\ N.max (value a) (value b) = top F /\ N.min (value a) (value b) = 0) /\
  (code = Some 101%Z <-> ~ Forall unicode args \/ (derange_to_top args \/ split_to_top args) /\ code <> None) /\
  (code = Some 0%Z <-> Forall unicode args /\ exists ms, duty usize_bits args ms 0%Z) /\
  (code = Some 1%Z <-> Forall unicode args /\ exists ms, duty usize_bits args ms 1%Z) /\
  In code [None; Some 101%Z; Some 0%Z; Some 1%Z].
Proof.
  intros U R T args. cbv zeta. destruct (unicode_args_dec args) as [Ha|Ha].
  - rewrite main_run by exact Ha. cbn [ended]. destruct (c83_cases R T args) as [K1 K2].
    assert (Z01 : forall z, snd (do_main args) = Ret z -> z = 0%Z \/ z = 1%Z).
    { intros z Hz. pose proof (c72_status U R T args z) as S. rewrite main_run in S by exact Ha. cbn [ended] in S. apply (S Hz). }
    pose proof (duty_status R T args 0%Z) as D0. pose proof (duty_status R T args 1%Z) as D1.
    rewrite <- D0, <- D1. clear D0 D1. revert K1 K2 Z01. generalize (snd (do_main args)). intros [z| |] K1 K2 Z01.
    + assert (NK : ~ (overflow_checks = false /\ exists F prog w s t (a b : addr F), args = [prog; w; s; t] /\ In w derange_words /\
        address_text F s a /\ address_text F t b /\ N.max (value a) (value b) = top F /\ N.min (value a) (value b) = 0)) by (intros H; apply K1 in H; discriminate).
      assert (NP : ~ (derange_to_top args \/ split_to_top args)).
      { intros H. assert (X : Ret z = @Panic Z) by (apply K2; split; [exact H|discriminate]). discriminate X. }
      cbn [as_seen exit_code]. split; [split; [discriminate|tauto]|]. destruct (Z01 z eq_refl) as [-> | ->].
      * split; [split; [discriminate|tauto]|]. split; [split; [auto|reflexivity]|]. split; [split; [discriminate|intros [_ H]; discriminate]|cbn [In]; tauto].
      * split; [split; [discriminate|tauto]|]. split; [split; [discriminate|intros [_ H]; discriminate]|]. split; [split; [auto|reflexivity]|cbn [In]; tauto].
    + assert (NK : ~ (overflow_checks = false /\ exists F prog w s t (a b : addr F), args = [prog; w; s; t] /\ In w derange_words /\
        address_text F s a /\ address_text F t b /\ N.max (value a) (value b) = top F /\ N.min (value a) (value b) = 0)) by (intros H; apply K1 in H; discriminate).
      cbn [as_seen exit_code In]. split; [split; [discriminate|tauto]|]. split; [split; [|reflexivity]; intros _; right; split; [now apply K2|discriminate]|].
      split; [split; [discriminate|intros [_ H]; discriminate]|]. split; [split; [discriminate|intros [_ H]; discriminate]|tauto].
    + cbn [as_seen exit_code In]. split; [split; [|reflexivity]; intros _; split; [exact Ha|now apply K1]|].
      split; [split; [discriminate|intros [H|[_ H]]; contradiction]|].
      split; [split; [discriminate|intros [_ H]; discriminate]|]. split; [split; [discriminate|intros [_ H]; discriminate]|tauto].
  - rewrite main_panic by exact Ha. cbn [ended as_seen exit_code In]. repeat split; try congruence; try tauto; intros [H _]; contradiction.
Qed.
