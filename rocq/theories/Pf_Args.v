(** * Pf_Args: proofs for P_Args *)
From Verif Require Import RustBase Addr BitManip Net Parse Console ShowNet Main Messages Process Spec SpecText SpecIO SpecShow SpecMain SpecProcess Demo
  Laws NetFacts Family TextFacts Utf8Facts Order Pf_Addr Pf_Net Pf_Netspec Pf_Minimize Pf_Derange Pf_Split Pf_Enum Pf_Show Pf_Main Pf_Compose Pf_Runs Pf_Process Pf_Pipes.
From Coq Require Import ZifyBool ZifyNat ZifyN.
Ltac Zify.zify_post_hook ::= idtac.

Section Does.
  Context (U : Unicode) (R : Rust) (T : Terminal).
  Definition put_out (ms : list mark) : str := flat_map to_stdout (map (paint colors_enabled) ms).
  Definition put_err (ms : list mark) : str := flat_map to_stderr (map (paint colors_enabled) ms).
  Lemma main_does args ms z : Forall unicode args -> does args ms z ->
    main args = {| on_stdout := put_out ms; on_stderr := put_err ms; ended := Ret z |}.
  Proof. intros Ha D. rewrite main_run by exact Ha. now rewrite (D T). Qed.
  Lemma put_out_app ms ms' : put_out (ms ++ ms') = put_out ms ++ put_out ms'.
  Proof. unfold put_out. now rewrite map_app, flat_map_app. Qed.
  Lemma put_err_app ms ms' : put_err (ms ++ ms') = put_err ms ++ put_err ms'.
  Proof. unfold put_err. now rewrite map_app, flat_map_app. Qed.
  Lemma put_err_quiet ms : quiet ms -> put_err ms = [].
  Proof.
    intros H. apply no_messages. intros m I. apply in_map_iff in I. destruct I as (k & E & I).
    unfold quiet in H. rewrite Forall_forall in H. specialize (H _ I).
    destruct k; cbn [paint] in E; try discriminate; try (destruct colors_enabled; discriminate). now apply H.
  Qed.
End Does.

Lemma unicode_parts prog w (ss ss' : list str) : unicode w -> Forall unicode (prog :: ss ++ ss') ->
  Forall unicode (prog :: w :: ss) /\ Forall unicode (prog :: w :: ss') /\ Forall unicode (prog :: w :: ss ++ ss').
Proof.
  intros Hw H. inversion H as [|? ? Hp H']; subst. pose proof H' as H2. apply Forall_app in H2. destruct H2 as [H1 H2].
  split; [|split]; (constructor; [exact Hp|]; constructor; [exact Hw|assumption]).
Qed.

(** ** Enumerating *)
Section Enumerate.
  Context (R : Rust).
  Definition listed (s : str) (ms : list mark) : Prop :=
    (exists F (a : addr F) n l, means F s a n /\
       (forall x, In x l <-> valid x /\ member n x) /\
       StronglySorted (fun x y : addr F => value x < value y) l /\
       ms = map (fun x => says (display x)) l) \/
    (nonsense s /\ exists e, parse_netspec s = Ret (RErr e) /\ ms = [Problem (MsgNetwork s e)]).
  Lemma listed_once s ms ms' : listed s ms -> listed s ms' -> ms = ms'.
  Proof.
    intros [(F & a & n & l & M & Hi & Hs & ->)|(N & e & E & ->)] [(G & b & m & l' & M' & Hi' & Hs' & ->)|(N' & e' & E' & ->)].
    - pose proof M' as M2. revert l' M' Hi' Hs'.
      apply (means_once R F G s a n b m (fun G b m => forall l', means G s b m -> (forall x, In x l' <-> valid x /\ member m x) ->
        StronglySorted (fun x y : addr G => value x < value y) l' ->
        map (fun x => says (@display (addr F) (@addr_ops R F) x)) l = map (fun x => says (@display (addr G) (@addr_ops R G) x)) l') M M2).
      intros l' _ Hi' Hs'. assert (l' = l) as ->; [|reflexivity].
      apply (strictly_sorted_ext (fun x y : addr F => value x < value y)); [intros; lia|intros; lia|assumption|assumption|].
      intros x. now rewrite Hi, Hi'.
    - now apply N' in M.
    - now apply N in M'.
    - congruence.
  Qed.
  Lemma listed_list ss : forall mss mss', Forall2 listed ss mss -> Forall2 listed ss mss' -> mss = mss'.
  Proof.
    induction ss as [|s ss IH]; intros mss mss' H H'; inversion H; inversion H'; subst; [reflexivity|].
    f_equal; [now apply (listed_once s)|now apply IH].
  Qed.
  Definition status_of (ss : list str) (z : Z) : Prop :=
    z = 0%Z /\ (forall s, In s ss -> ~ nonsense s) \/ z = 1%Z /\ exists s, In s ss /\ nonsense s.
End Enumerate.

Lemma c86_enumerate : forall (U : Unicode) (R : Rust) (T : Terminal) (prog w : str) (ss ss' : list str),
  In w enumerate_words -> ss <> [] -> ss' <> [] -> Forall unicode (prog :: ss ++ ss') ->
  let one := main (prog :: w :: ss) in
  let two := main (prog :: w :: ss') in
  let both := main (prog :: w :: ss ++ ss') in
  on_stdout both = on_stdout one ++ on_stdout two /\ on_stderr both = on_stderr one ++ on_stderr two /\
  (ended both = Ret 0%Z /\ ended one = Ret 0%Z /\ ended two = Ret 0%Z \/
   ended both = Ret 1%Z /\ (ended one = Ret 1%Z \/ ended two = Ret 1%Z)).
Proof.
  intros U R T prog w ss ss' Hw H1 H2 Hu.
  destruct (unicode_parts prog w ss ss') as (U1 & U2 & U3); [now apply (word_unicode enumerate_words)|exact Hu|].
  destruct (c62_enumerate R prog w ss Hw H1) as (m1 & z1 & L1 & Z1 & D1).
  destruct (c62_enumerate R prog w ss' Hw H2) as (m2 & z2 & L2 & Z2 & D2).
  destruct (c62_enumerate R prog w (ss ++ ss') Hw) as (m3 & z3 & L3 & Z3 & D3); [now destruct ss|].
  assert (E : m3 = m1 ++ m2).
  { apply (listed_list R (ss ++ ss')); [exact L3|]. apply Forall2_app; [exact L1|exact L2]. }
  rewrite (main_does U R T _ _ _ U1 D1), (main_does U R T _ _ _ U2 D2), (main_does U R T _ _ _ U3 D3).
  cbv zeta. cbn [on_stdout on_stderr ended]. rewrite E, concat_app, put_out_app, put_err_app. split; [reflexivity|]. split; [reflexivity|].
  clear - Z1 Z2 Z3.
  destruct Z3 as [[-> N3]|[-> (s & Hs & N3)]]; [left|right].
  - split; [reflexivity|]. split.
    + destruct Z1 as [[-> _]|[_ (s & Hs & N)]]; [reflexivity|]. exfalso. apply (N3 s); [apply in_or_app; now left|exact N].
    + destruct Z2 as [[-> _]|[_ (s & Hs & N)]]; [reflexivity|]. exfalso. apply (N3 s); [apply in_or_app; now right|exact N].
  - split; [reflexivity|]. apply in_app_or in Hs. destruct Hs as [Hs|Hs]; [left|right].
    + destruct Z1 as [[_ N]|[-> _]]; [now apply N in Hs|reflexivity].
    + destruct Z2 as [[_ N]|[-> _]]; [now apply N in Hs|reflexivity].
Qed.

(** ** Describing *)
Lemma first_nonsense (R : Rust) ss : (forall s, In s ss -> ~ nonsense s) \/
  exists pre s post, ss = pre ++ s :: post /\ (forall t, In t pre -> ~ nonsense t) /\ nonsense s.
Proof.
  induction ss as [|s ss IH]; [left; intros s []|].
  destruct (parse_cases R s) as [(F & a & n & _ & M)|(e & _ & N)].
  - assert (~ nonsense s) as Ns by (intros N; now apply N in M). destruct IH as [H|(pre & t & post & -> & Hp & Nt)].
    + left. intros t [<-|Ht]; auto.
    + right. exists (s :: pre), t, post. split; [reflexivity|]. split; [|exact Nt]. intros u [<-|Hu]; auto.
  - right. exists [], s, ss. split; [reflexivity|]. split; [intros t []|exact N].
Qed.
Section Describe.
  Context (R : Rust).
  Definition shown (s : str) (ms : list mark) : Prop := exists F (a : addr F) n, means F s a n /\ described n (Some a) ms.
  Lemma shown_once s ms ms' : shown s ms -> shown s ms' -> ms = ms'.
  Proof.
    intros (F & a & n & M & D) (G & b & m & M' & D'). revert D'.
    apply (means_once R F G s a n b m (fun G b m => described m (Some b) ms' -> ms = ms') M M').
    intros D'. apply (c67_described_once R F n (Some a)); [|exact D|exact D']. now apply (means_wf R F s a n).
  Qed.
  Lemma shown_list ss : forall mss mss', Forall2 shown ss mss -> Forall2 shown ss mss' -> mss = mss'.
  Proof.
    induction ss as [|s ss IH]; intros mss mss' H H'; inversion H; inversion H'; subst; [reflexivity|].
    f_equal; [now apply (shown_once s)|now apply IH].
  Qed.
  Lemma shown_quiet ss mss : Forall2 shown ss mss -> quiet (spaced mss).
  Proof.
    intros H. apply quiet_spaced. induction H as [|s ms ss mss (F & a & n & _ & D) H IH]; constructor; [|exact IH].
    now apply quiet_described in D.
  Qed.
End Describe.
Lemma spaced_app b c : b <> [] -> c <> [] -> spaced (b ++ c) = spaced b ++ break :: spaced c.
Proof.
  intros Hb Hc. induction b as [|x b IH]; [congruence|]. destruct b as [|y b].
  - cbn [app spaced]. destruct c; [congruence|]. now rewrite app_nil_r.
  - cbn [app] in *. change (spaced (x :: y :: b ++ c)) with (x ++ break :: spaced (y :: b ++ c)). rewrite IH by discriminate.
    change (spaced (x :: y :: b)) with (x ++ break :: spaced (y :: b)). now rewrite <- app_assoc.
Qed.

Lemma c86_show : forall (U : Unicode) (R : Rust) (T : Terminal) (prog : str) (ss ss' : list str),
  (forall w, hd_error ss = Some w \/ hd_error ss' = Some w -> ~ In w command_words) ->
  ss <> [] -> ss' <> [] -> Forall unicode (prog :: ss ++ ss') ->
  let one := main (prog :: ss) in
  let two := main (prog :: ss') in
  let both := main (prog :: ss ++ ss') in
  (ended one = Ret 0%Z /\ ended two = Ret 0%Z /\
   both = {| on_stdout := on_stdout one ++ newline ++ on_stdout two; on_stderr := []; ended := Ret 0%Z |}) \/
  (ended one = Ret 1%Z /\ both = one) \/
  (ended one = Ret 0%Z /\ ended two = Ret 1%Z /\ both = two).
Proof.
  intros U R T prog ss ss' Hw H1 H2 Hu.
  assert (Uu : Forall unicode (prog :: ss) /\ Forall unicode (prog :: ss')).
  { inversion Hu as [|? ? Hp H']; subst. apply Forall_app in H'. destruct H'. split; constructor; assumption. }
  destruct Uu as [U1 U2].
  assert (W1 : forall w, hd_error ss = Some w -> ~ In w command_words) by (intros w Hh; apply Hw; now left).
  assert (W2 : forall w, hd_error ss' = Some w -> ~ In w command_words) by (intros w Hh; apply Hw; now right).
  assert (W3 : forall post w, hd_error (ss ++ post) = Some w -> ~ In w command_words) by (intros post; destruct ss; [congruence|exact W1]).
  cbv zeta. destruct (first_nonsense R ss) as [N1|(pre & s & post & E & Hp & N)].
  - destruct (c62_show R prog ss H1 W1 N1) as (m1 & L1 & D1). rewrite (main_does U R T _ _ _ U1 D1).
    destruct (first_nonsense R ss') as [N2|(pre & s & post & E & Hp & N)].
    + left. destruct (c62_show R prog ss' H2 W2 N2) as (m2 & L2 & D2). rewrite (main_does U R T _ _ _ U2 D2).
      cbn [ended on_stdout]. split; [reflexivity|]. split; [reflexivity|].
      destruct (c62_show R prog (ss ++ ss')) as (m3 & L3 & D3).
      { now destruct ss. }
      { apply W3. }
      { intros t Ht. apply in_app_or in Ht. destruct Ht; auto. }
      assert (E : m3 = m1 ++ m2).
      { apply (shown_list R (ss ++ ss')); [exact L3|]. apply Forall2_app; [exact L1|exact L2]. }
      rewrite (main_does U R T _ _ _ Hu D3). rewrite put_err_quiet by (eapply shown_quiet; exact L3). f_equal.
      rewrite E, spaced_app, put_out_app; [reflexivity| |].
      * intros ->. inversion L1; subst. congruence.
      * intros ->. inversion L2; subst. congruence.
    + right. right. subst ss'. destruct (c62_show_error R prog pre post s W2 Hp N) as (e & Ee & D2).
      rewrite (main_does U R T _ _ _ U2 D2). split; [reflexivity|]. split; [reflexivity|].
      destruct (c62_show_error R prog (ss ++ pre) post s) as (e' & Ee' & D3).
      { rewrite <- app_assoc. apply W3. }
      { intros t Ht. apply in_app_or in Ht. destruct Ht; auto. }
      { exact N. }
      rewrite <- app_assoc in D3. rewrite (main_does U R T _ _ _ Hu D3). assert (e' = e) as -> by congruence. reflexivity.
  - right. left. subst ss. destruct (c62_show_error R prog pre post s W1 Hp N) as (e & Ee & D1).
    rewrite (main_does U R T _ _ _ U1 D1). split; [reflexivity|].
    destruct (c62_show_error R prog pre (post ++ ss') s) as (e' & Ee' & D3); [|exact Hp|exact N|].
    { specialize (W3 ss'). rewrite <- app_assoc in W3. exact W3. }
    rewrite <- app_assoc in *. cbn [app] in *. rewrite (main_does U R T _ _ _ Hu D3). assert (e' = e) as -> by congruence. reflexivity.
Qed.

(** ** Ranges *)
Lemma unicode_swap prog w s t : Forall unicode [prog; w; s; t] -> Forall unicode [prog; w; t; s].
Proof.
  rewrite !Forall_forall. intros H x Hx. apply H. cbn [In] in *. tauto.
Qed.
Lemma c86_derange : forall (U : Unicode) (R : Rust) (T : Terminal) (prog w s t : str),
  In w derange_words ->
  let there := main [prog; w; s; t] in
  let back := main [prog; w; t; s] in
  on_stdout there = on_stdout back /\ ended there = ended back /\
  (on_stderr there = on_stderr back \/ ended there = Ret 1%Z /\ (no_address s \/ no_address t)).
Proof.
  intros U R T prog w s t Hw. cbv zeta. destruct (unicode_args_dec [prog; w; s; t]) as [Hu|Hu].
  2: { rewrite (main_panic U R T [prog; w; s; t]) by exact Hu. rewrite (main_panic U R T [prog; w; t; s]); [auto|].
       intros H. now apply Hu, unicode_swap. }
  pose proof (unicode_swap _ _ _ _ Hu) as Hv.
  rewrite !main_run by assumption. cbn [on_stdout on_stderr ended]. rewrite !run_derange by exact Hw. unfold derange.
  destruct (addr_cases s) as [(F & a & Ea & Ha)|(e & Es & Hs)], (addr_cases t) as [(G & b & Eb & Hb)|(e' & Et & Ht)];
    [rewrite Ea, Eb|rewrite Ea, Et|rewrite Es, Eb|rewrite Es, Et].
  - destruct F, G; cbn [parsed_of]; rewrite !io_lift_ret; [|split; [reflexivity|]; split; [reflexivity|left; reflexivity]..|].
    + pose proof (c38_symmetric R V4 a b (addr_valid V4 s a Ha) (addr_valid V4 t b Hb)) as E. cbn [addr addr_ops] in E. rewrite E. auto.
    + pose proof (c38_symmetric R V6 a b (addr_valid V6 s a Ha) (addr_valid V6 t b Hb)) as E. cbn [addr addr_ops] in E. rewrite E. auto.
  - rewrite !io_lift_ret. split; [reflexivity|]. split; [reflexivity|]. right. split; [reflexivity|now right].
  - rewrite !io_lift_ret. split; [reflexivity|]. split; [reflexivity|]. right. split; [reflexivity|now left].
  - rewrite !io_lift_ret. split; [reflexivity|]. split; [reflexivity|]. right. split; [reflexivity|now left].
Qed.

(** ** Joining *)
Lemma not_of_two F G s : of_family F s -> of_family G s -> F = G.
Proof.
  intros (a & n & M) (b & m & M').
  exact (means_once debug_env F G s a n b m (fun G _ _ => F = G) M M' eq_refl).
Qed.
Lemma unicode_same prog w (ss ss' : list str) : (forall s, In s ss <-> In s ss') -> Forall unicode (prog :: w :: ss) -> Forall unicode (prog :: w :: ss').
Proof.
  intros H. rewrite !Forall_forall. intros K x [<-|[<-|Hx]]; apply K; [now left|right; now left|right; right; now apply H].
Qed.
Section Refuse.
  Context (R : Rust) (prog w : str).
  Hypothesis Hw : In w minimize_words.
  Lemma minimize_cases ss : (exists F, ss <> [] /\ Forall (of_family F) ss) \/
    ((forall F, ss = [] \/ ~ Forall (of_family F) ss) /\ exists m, does (prog :: w :: ss) [Problem m] 1%Z).
  Proof.
    destruct (specs_cases R ss) as [(-> & _)|[(F & l & Hne & H & K)|[(F & e & pre & s & post & -> & E & Hp & _)|(F & G & pre & s & post & HF & Hne & -> & (a & n & E) & Hp & K)]]].
    - right. split; [now left|]. exists MsgUsage. apply c62_usage. right. exists prog, w, []. split; [reflexivity|]. right. right. split; [now left|reflexivity].
    - left. exists F. split; [exact Hne|]. clear -H. induction H as [|s an ss l Hs H IH]; constructor; [|exact IH].
      exists (fst an), (snd an). now apply (parse_means R).
    - right. assert (Ns : nonsense s) by (apply (parse_nonsense R); eauto). split.
      + intros G. right. intros H. apply Forall_app in H. destruct H as [_ H]. inversion H as [|? ? (a & n & M) _]; subst. now apply Ns in M.
      + assert (Forall (of_family F) pre) as Hp'.
        { eapply Forall_impl; [|exact Hp]. intros t (a & n & Ht). exists a, n. now apply (parse_means R). }
        destruct (proj1 (c62_minimize_error R F prog w pre post s Hw Hp') Ns) as (e' & _ & D). eauto.
    - right. assert (Forall (of_family F) pre) as Hp'.
      { eapply Forall_impl; [|exact Hp]. intros t (b & m & Ht). exists b, m. now apply (parse_means R). }
      assert (Gs : of_family G s) by (exists a, n; now apply (parse_means R)). split.
      + intros K'. right. intros H. apply Forall_app in H. destruct H as [H1 H2]. inversion H2 as [|? ? Ks _]; subst.
        assert (K' = G) as -> by now apply (not_of_two K' G s). destruct pre as [|t pre]; [congruence|]. inversion H1; inversion Hp'; subst.
        apply HF. now apply (not_of_two F G t).
      + exists MsgMixing. apply (proj2 (c62_minimize_error R F prog w pre post s Hw Hp') Hne G); [congruence|exact Gs].
  Qed.
End Refuse.
Lemma same_nil {X} (l l' : list X) : (forall x, In x l <-> In x l') -> l' = [] -> l = [].
Proof. intros H ->. destruct l as [|x l]; [reflexivity|]. destruct (proj1 (H x)); now left. Qed.
Lemma Forall_same {X} (P : X -> Prop) (l l' : list X) : (forall x, In x l <-> In x l') -> Forall P l -> Forall P l'.
Proof. intros H. rewrite !Forall_forall. intros K x Hx. apply K. now apply H. Qed.
Lemma nets_same (R : Rust) F ss ss' (l l' : list (addr F * net F)) :
  Forall2 (fun s an => means F s (fst an) (snd an)) ss l -> Forall2 (fun s an => means F s (fst an) (snd an)) ss' l' ->
  (forall s, In s ss -> In s ss') -> forall n, In n (map snd l) -> In n (map snd l').
Proof.
  intros H H' Hin n Hn.
  assert (P : exists s a, In s ss /\ means F s a n).
  { clear -H Hn. induction H as [|s [a m] ss l M H IH]; [contradiction|]. destruct Hn as [<-|Hn].
    - exists s, a. split; [now left|exact M].
    - destruct (IH Hn) as (t & b & Ht & Mt). exists t, b. split; [now right|exact Mt]. }
  destruct P as (s & a & Hs & M). apply Hin in Hs. clear -R H' Hs M.
  induction H' as [|t [b m] ss l Mt H IH]; [contradiction|]. cbn [map]. destruct Hs as [->|Hs]; [left|right; now apply IH].
  cbn [fst snd] in *. apply (parse_means R) in Mt, M. rewrite M in Mt. destruct F; cbn [spec_of] in Mt; congruence.
Qed.

Lemma c86_minimize : forall (U : Unicode) (R R' : Rust) (T : Terminal) (prog w : str) (ss ss' : list str),
  In w minimize_words -> (forall s, In s ss <-> In s ss') ->
  let this := @main U R T (prog :: w :: ss) in
  let that := @main U R' T (prog :: w :: ss') in
  on_stdout this = on_stdout that /\ ended this = ended that /\
  (on_stderr this = on_stderr that \/ ended this = Ret 1%Z).
Proof.
  intros U R R' T prog w ss ss' Hw Hin. cbv zeta. destruct (unicode_args_dec (prog :: w :: ss)) as [Hu|Hu].
  2: { rewrite main_panic by exact Hu. rewrite main_panic; [auto|]. intros H. apply Hu. apply (unicode_same prog w ss'); [|exact H]. intros s. now rewrite Hin. }
  pose proof (unicode_same prog w ss ss' Hin Hu) as Hv.
  destruct (minimize_cases R prog w Hw ss) as [(F & Hne & Hf)|(Hno & m & D)].
  - pose proof (Forall_same _ ss ss' Hin Hf) as Hf'. assert (Hne' : ss' <> []) by (intros E; now apply Hne, (same_nil ss ss')).
    destruct (choose_means F (fun _ => True) ss) as (l & Ml & _). { eapply Forall_impl; [|exact Hf]. intros s (a & n & M). exists a, n. auto. }
    destruct (choose_means F (fun _ => True) ss') as (l' & Ml' & _). { eapply Forall_impl; [|exact Hf']. intros s (a & n & M). exists a, n. auto. }
    destruct (c62_minimize R F prog w ss l Hw Hne Ml) as (r & E & D). destruct (c62_minimize R' F prog w ss' l' Hw Hne' Ml') as (r' & E' & D').
    assert (W : Forall wf_net (map snd l)).
    { clear -R Ml. induction Ml as [|s an ss l M H IH]; [constructor|]. cbn [map]. constructor; [apply (means_wf R F s _ _ M)|exact IH]. }
    rewrite (c44_deterministic R R' F (map snd l) (map snd l') W) in E'.
    2: { intros n. split; [apply (nets_same R F ss ss'); [exact Ml|exact Ml'|apply Hin]|apply (nets_same R F ss' ss); [exact Ml'|exact Ml|apply Hin]]. }
    rewrite E in E'. injection E' as <-. rewrite (main_does U R T _ _ _ Hu D), (main_does U R' T _ _ _ Hv D').
    cbn [on_stdout on_stderr ended].
    assert (Em : map (fun n => says (@net_display (addr F) (@addr_ops R F) n)) r = map (fun n => says (@net_display (addr F) (@addr_ops R' F) n)) r).
    { apply map_ext. intros n. now rewrite (net_display_env R R'). }
    rewrite Em. auto.
  - destruct (minimize_cases R' prog w Hw ss') as [(F & Hne & Hf)|(Hno' & m' & D')].
    + exfalso. assert (Hin' : forall s, In s ss' <-> In s ss) by (intros s; now rewrite Hin). destruct (Hno F) as [E|N].
      * now apply Hne, (same_nil ss' ss).
      * apply N. now apply (Forall_same _ ss' ss).
    + rewrite (main_does U R T _ _ _ Hu D), (main_does U R' T _ _ _ Hv D'). cbn [on_stdout ended]. auto.
Qed.

(** ** Output as input *)
Lemma cidr_read (R : Rust) F ss : Forall (fun s => exists a n p, means F s a n /\ is_cidr n p) ss ->
  exists l : list (addr F * net F), Forall2 (fun s an => means F s (fst an) (snd an)) ss l /\ Forall (fun n => exists p, is_cidr n p) (map snd l) /\ Forall unicode ss.
Proof.
  intros Hs. destruct (choose_means F (fun n => exists p, is_cidr n p) ss) as (l & M & Hc).
  { eapply Forall_impl; [|exact Hs]. intros s (a & n & p & M & Hp). exists a, n. split; [exact M|now exists p]. }
  exists l. split; [exact M|]. split; [exact Hc|]. eapply Forall_impl; [|exact Hs]. intros s (a & n & p & Ms & _). now apply means_unicode in Ms.
Qed.
Lemma minimize_out (U : Unicode) (R : Rust) (T : Terminal) (F : family) prog w ss l :
  unicode prog -> In w minimize_words -> ss <> [] ->
  Forall2 (fun s an => means F s (fst an) (snd an)) ss l -> Forall (fun n => exists p, is_cidr n p) (map snd l) -> Forall unicode ss ->
  exists r, minimize_subnets (map snd l) = Ret r /\ Forall (fun n => exists p, is_cidr n p) r /\
    main (prog :: w :: ss) = silent (map net_display r) /\ text_lines (on_stdout (main (prog :: w :: ss))) = map net_display r /\
    (F = V4 -> Forall (of_family F) (map net_display r)).
Proof.
  intros Hp Hw Hne M Hc Hu. destruct (c62_minimize R F prog w ss l Hw Hne M) as (r & E & D). exists r. split; [exact E|].
  rewrite <- lines_says in D.
  assert (Hr : Forall (fun n => exists p, is_cidr n p) r).
  { exact (proj1 (c42_shortest R F (map snd l) (map snd l) r Hc E Hc (fun c _ => iff_refl _))). }
  split; [exact Hr|].
  assert (Ef : main (prog :: w :: ss) = silent (map net_display r)).
  { apply does_main; [exact D|]. constructor; [exact Hp|]. constructor; [now apply (word_unicode minimize_words)|exact Hu]. }
  split; [exact Ef|]. rewrite Ef. cbn [silent on_stdout]. split.
  - apply read_lines. apply Forall_map, Forall_forall. intros n _. apply prints_line, (prints_net R).
  - intros ->. eapply (c68_readable_v4 R prog w ss); [|exact D]. left. split; [exact Hw|].
    clear -M. induction M as [|s an ss l Ms M IH]; constructor; [|exact IH]. exists (fst an), (snd an). exact Ms.
Qed.
Lemma nets_unicode (R : Rust) F (r : list (net F)) : Forall unicode (map net_display r).
Proof. apply Forall_map, Forall_forall. intros n _. apply prints_unicode, (prints_net R). Qed.

Lemma displays_env (R R' : Rust) F (r : list (net F)) : map (@net_display (addr F) (@addr_ops R F)) r = map (@net_display (addr F) (@addr_ops R' F)) r.
Proof. apply map_ext. intros n. apply net_display_env. Qed.

Lemma c86_minimize_more : forall (U U' : Unicode) (R R' : Rust) (T T' : Terminal) (F : family) (prog w w' : str) (ss ss' : list str),
  unicode prog -> In w minimize_words -> In w' minimize_words -> ss <> [] ->
  Forall (fun s => exists a n p, means F s a n /\ is_cidr n p) (ss ++ ss') ->
  let out := text_lines (on_stdout (@main U R T (prog :: w :: ss))) in
  F = V4 \/ Forall (of_family F) out ->
  @main U' R' T' (prog :: w' :: out ++ ss') = @main U R T (prog :: w :: ss ++ ss').
Proof.
  intros U U' R R' T T' F prog w w' ss ss' Hp Hw Hw' Hne Hs.
  apply Forall_app in Hs as Hs'. destruct Hs' as [Hs1 Hs2].
  destruct (cidr_read R F ss Hs1) as (l1 & M1 & C1 & U1). destruct (cidr_read R F ss' Hs2) as (l2 & M2 & C2 & U2).
  destruct (minimize_out U R T F prog w ss l1 Hp Hw Hne M1 C1 U1) as (r & E & Cr & _ & Eo & H4). cbv zeta. rewrite Eo. intros Ho.
  assert (Hof : Forall (of_family F) (map (@net_display (addr F) (@addr_ops R F)) r)) by (destruct Ho as [->|Ho]; [now apply H4|exact Ho]).
  clear Ho H4 Eo. pose proof (reads_back_list R F r Cr Hof) as Mr.
  assert (Hrne : map (@net_display (addr F) (@addr_ops R F)) r <> []).
  { intros Er. apply map_eq_nil in Er. subst r. destruct M1 as [|s an ss l Ms M]; [congruence|]. cbn [map] in C1.
    assert (Wl : Forall wf_net (snd an :: map snd l)) by (eapply Forall_impl; [|exact C1]; intros n [p Hn]; apply Hn).
    destruct (c39_same_addresses R F (snd an :: map snd l) Wl) as (r & E' & Hm). cbn [map] in E. rewrite E in E'. injection E' as <-.
    inversion Wl; subst. destruct (proj2 (Hm (base_addr (snd an)) (wf_base _ H1))) as (? & [] & _).
    exists (snd an). split; [now left|apply member_base]. }
  assert (Ml : Forall2 (fun s an => means F s (fst an) (snd an)) (ss ++ ss') (l1 ++ l2)) by (apply Forall2_app; assumption).
  assert (Mr2 : Forall2 (fun s an => means F s (fst an) (snd an)) (map (@net_display (addr F) (@addr_ops R F)) r ++ ss') (map (fun n => (base_addr n, n)) r ++ l2)) by (apply Forall2_app; assumption).
  assert (Cl : Forall (fun n => exists p, is_cidr n p) (map snd (l1 ++ l2))) by (rewrite map_app; apply Forall_app; now split).
  assert (Cr2 : Forall (fun n => exists p, is_cidr n p) (map snd (map (fun n : net F => (base_addr n, n)) r ++ l2))).
  { rewrite map_app. apply Forall_app. split; [|exact C2]. rewrite map_map. cbn [snd]. now rewrite map_id. }
  destruct (minimize_out U R T F prog w (ss ++ ss') (l1 ++ l2) Hp Hw) as (x & Ex & _ & Mx & _); [now destruct ss|exact Ml|exact Cl|apply Forall_app; now split|].
  destruct (minimize_out U' R' T' F prog w' _ _ Hp Hw' (fun H => Hrne (proj1 (app_eq_nil _ _ H))) Mr2 Cr2) as (y & Ey & _ & My & _).
  { apply Forall_app. split; [apply nets_unicode|exact U2]. }
  rewrite Mx, My. enough (Ec : Ret y = Ret x).
  - injection Ec as ->. exact (f_equal silent (displays_env R' R F x)).
  - refine (eq_trans (eq_sym Ey) (eq_trans (c43_canonical R R' F (map snd (l1 ++ l2)) _ Cl Cr2 _) Ex)).
    intros c Vc. rewrite !map_app, map_map. cbn [snd]. rewrite map_id.
    assert (Wl : Forall wf_net (map snd l1)) by (eapply Forall_impl; [|exact C1]; intros n [p Hn]; apply Hn).
    destruct (c39_same_addresses R F (map snd l1) Wl) as (r' & E' & Hm). rewrite E in E'. injection E' as <-.
    specialize (Hm c Vc). split; intros (n & Hn & Mn); apply in_app_or in Hn; (destruct Hn as [Hn|Hn]; [|exists n; split; [apply in_or_app; now right|exact Mn]]).
    + destruct (proj1 Hm) as (k & Hk & Mk); [now exists n|]. exists k. split; [apply in_or_app; now left|exact Mk].
    + destruct (proj2 Hm) as (k & Hk & Mk); [now exists n|]. exists k. split; [apply in_or_app; now left|exact Mk].
Qed.

Lemma sorted_app {X} (P : X -> X -> Prop) (l l' : list X) : StronglySorted P l -> StronglySorted P l' ->
  (forall x y, In x l -> In y l' -> P x y) -> StronglySorted P (l ++ l').
Proof.
  intros H H' K. induction H as [|x l H IH Hx]; [exact H'|]. cbn [app]. constructor.
  - apply IH. intros y z Hy Hz. apply K; [now right|exact Hz].
  - apply Forall_app. split; [exact Hx|]. apply Forall_forall. intros y Hy. apply K; [now left|exact Hy].
Qed.
Lemma enumerate_nets (U : Unicode) (R : Rust) (T : Terminal) (F : family) prog w (r : list (net F)) :
  unicode prog -> In w enumerate_words -> r <> [] -> Forall (fun n => exists p, is_cidr n p) r -> Forall (of_family F) (map net_display r) ->
  StronglySorted (fun n n' : net F => forall x y, valid x -> valid y -> member n x -> member n' y -> value x < value y) r ->
  exists l : list (addr F), (forall x, In x l <-> valid x /\ exists n, In n r /\ member n x) /\
    StronglySorted (fun x y : addr F => value x < value y) l /\
    main (prog :: w :: map net_display r) = {| on_stdout := lines (map display l); on_stderr := []; ended := Ret 0%Z |}.
Proof.
  intros Hp Hw Hne Cr Hof Hs. pose proof (reads_back_list R F r Cr Hof) as Mr.
  destruct (c62_enumerate R prog w (map net_display r) Hw) as (mss & z & L & Hz & D); [now destruct r|].
  assert (z = 0%Z) as ->.
  { destruct Hz as [[-> _]|[_ (t & Ht & Ns)]]; [reflexivity|]. rewrite Forall_forall in Hof. destruct (Hof t Ht) as (a & n & M). now apply Ns in M. }
  assert (K : exists l : list (addr F), (forall x, In x l <-> valid x /\ exists n, In n r /\ member n x) /\
    StronglySorted (fun x y : addr F => value x < value y) l /\ List.concat mss = map says (map (@display (addr F) (@addr_ops R F)) l)).
  { clear Hof Hz D Hne. revert mss L. induction Hs as [|n r Hs IH Hn]; intros mss L; cbn [map] in *.
    - inversion L; subst. exists []. split; [|split; [constructor|reflexivity]]. intros x. split; [intros []|intros (_ & n & [] & _)].
    - inversion L as [|? ms ? mss' Hl L']; subst. inversion Cr as [|? ? Cn Cr']; subst. inversion Mr as [|? ? ? ? Mn Mr']; subst.
      destruct (IH Cr' Mr' mss' L') as (l & Hi & Hl1 & Ec). cbn [fst snd] in Mn.
      assert (Kn : exists ln : list (addr F), (forall x, In x ln <-> valid x /\ member n x) /\
        StronglySorted (fun x y : addr F => value x < value y) ln /\ ms = map says (map (@display (addr F) (@addr_ops R F)) ln)).
      { destruct Hl as [(G & b & m & ln & M' & Hi' & Hl' & ->)|(Ns & _)]; [|now apply Ns in Mn].
        clear L. revert ln Hi' Hl'. apply (means_once R F G _ (base_addr n) n b m (fun G b m => forall ln : list (addr G), (forall x, In x ln <-> valid x /\ member m x) ->
          StronglySorted (fun x y : addr G => value x < value y) ln ->
          exists l : list (addr F), (forall x, In x l <-> valid x /\ member n x) /\
            StronglySorted (fun x y : addr F => value x < value y) l /\
            map (fun x => says (@display (addr G) (@addr_ops R G) x)) ln = map says (map (@display (addr F) (@addr_ops R F)) l)) Mn M').
        intros ln Hi' Hl'. exists ln. split; [exact Hi'|]. split; [exact Hl'|]. now rewrite map_map. }
      destruct Kn as (ln & Hin & Hln & ->). exists (ln ++ l). split; [|split].
      + intros x. rewrite in_app_iff, Hin, Hi. split.
        * intros [[V Mx]|(V & k & Hk & Mk)]; (split; [exact V|]); [exists n; split; [now left|exact Mx]|exists k; split; [now right|exact Mk]].
        * intros (V & k & [<-|Hk] & Mk); [left; now split|right; split; [exact V|now exists k]].
      + apply sorted_app; [exact Hln|exact Hl1|]. intros x y Hx Hy. apply Hin in Hx. apply Hi in Hy. destruct Hx as [Vx Mx], Hy as (Vy & k & Hk & My).
        rewrite Forall_forall in Hn. now apply (Hn k Hk x y).
      + cbn [List.concat]. now rewrite Ec, !map_app. }
  destruct K as (l & Hi & Hl & Ec). exists l. split; [exact Hi|]. split; [exact Hl|].
  rewrite Ec in D. apply (does_main U R T) in D; [exact D|].
  constructor; [exact Hp|]. constructor; [now apply (word_unicode enumerate_words)|apply nets_unicode].
Qed.

Lemma c86_range : forall (U U' : Unicode) (R R' : Rust) (T T' : Terminal) (F : family) (prog w w' s t : str) (a b : addr F),
  unicode prog -> In w derange_words -> In w' enumerate_words -> address_text F s a -> address_text F t b ->
  N.max (value a) (value b) <> top F ->
  let out := text_lines (on_stdout (@main U R T [prog; w; s; t])) in
  F = V4 \/ Forall (of_family F) out ->
  exists l : list (addr F),
    (forall x, In x l <-> valid x /\ N.min (value a) (value b) <= value x <= N.max (value a) (value b)) /\
    StronglySorted (fun x y : addr F => value x < value y) l /\
    @main U' R' T' (prog :: w' :: out) = {| on_stdout := lines (map display l); on_stderr := []; ended := Ret 0%Z |}.
Proof.
  intros U U' R R' T T' F prog w w' s t a b Hp Hw Hw' Ha Hb Ht. cbv zeta.
  assert (Va : valid a) by (eapply addr_valid; exact Ha). assert (Vb : valid b) by (eapply addr_valid; exact Hb).
  destruct (c62_derange R F prog w s t a b Hw Ha Hb Ht) as (r & E & D). rewrite <- lines_says in D.
  assert (Hi : N.max (value a) (value b) + 1 < 2 ^ width F).
  { pose proof (value_lt a Va). pose proof (value_lt b Vb). unfold top in Ht. lia. }
  destruct (c35_covers_exactly R F a b Va Vb Hi) as (r' & Er & Hc & Hm & Hs). rewrite E in Er. injection Er as <-.
  assert (Ef : @main U R T [prog; w; s; t] = silent (map (@net_display (addr F) (@addr_ops R F)) r)).
  { apply does_main; [exact D|]. constructor; [exact Hp|]. constructor; [now apply (word_unicode derange_words)|].
    constructor; [now apply address_unicode in Ha|]. constructor; [now apply address_unicode in Hb|constructor]. }
  rewrite Ef. cbn [silent on_stdout]. rewrite read_lines by (apply Forall_map, Forall_forall; intros n _; apply prints_line, (prints_net R)).
  intros Ho. assert (Hr : Forall (of_family F) (map (@net_display (addr F) (@addr_ops R F)) r)).
  { destruct Ho as [->|Ho]; [|exact Ho]. eapply (c68_readable_v4 R prog w [s; t]); [|exact D]. right. split; [exact Hw|].
    constructor; [now exists a|]. constructor; [now exists b|constructor]. }
  rewrite (displays_env R R') in Hr |- *.
  destruct (enumerate_nets U' R' T' F prog w' r Hp Hw') as (l & Hl & Sl & El); [|exact Hc|exact Hr|exact Hs|].
  { intros ->. destruct (proj1 (Hm a Va)) as (n & [] & _). lia. }
  exists l. split; [|split; [exact Sl|exact El]]. intros x. rewrite Hl. split; intros [V H]; (split; [exact V|]); now apply (Hm x V).
Qed.

Lemma c86_union : forall (U U' : Unicode) (R R' : Rust) (T T' : Terminal) (F : family) (prog w w' : str) (ss : list str),
  unicode prog -> In w minimize_words -> In w' enumerate_words -> ss <> [] ->
  Forall (fun s => exists a n p, means F s a n /\ is_cidr n p) ss ->
  let out := text_lines (on_stdout (@main U R T (prog :: w :: ss))) in
  F = V4 \/ Forall (of_family F) out ->
  exists l : list (addr F),
    (forall x, In x l <-> valid x /\ exists s a n, In s ss /\ means F s a n /\ member n x) /\
    StronglySorted (fun x y : addr F => value x < value y) l /\
    @main U' R' T' (prog :: w' :: out) = {| on_stdout := lines (map display l); on_stderr := []; ended := Ret 0%Z |}.
Proof.
  intros U U' R R' T T' F prog w w' ss Hp Hw Hw' Hne Hs. cbv zeta.
  destruct (cidr_read R F ss Hs) as (l1 & M1 & C1 & U1).
  destruct (minimize_out U R T F prog w ss l1 Hp Hw Hne M1 C1 U1) as (r & E & Cr & _ & Eo & H4). rewrite Eo. intros Ho.
  assert (Hof : Forall (of_family F) (map (@net_display (addr F) (@addr_ops R F)) r)) by (destruct Ho as [->|Ho]; [now apply H4|exact Ho]).
  clear Ho H4 Eo.
  assert (Wl : Forall wf_net (map snd l1)) by (eapply Forall_impl; [|exact C1]; intros n [p Hn]; apply Hn).
  destruct (c39_same_addresses R F (map snd l1) Wl) as (r' & E' & Hm). rewrite E in E'. injection E' as <-.
  rewrite (displays_env R R') in Hof |- *.
  destruct (enumerate_nets U' R' T' F prog w' r Hp Hw') as (l & Hl & Sl & El); [|exact Cr|exact Hof| |].
  - intros ->. destruct M1 as [|s an ss l Ms M]; [congruence|]. inversion Wl; subst.
    destruct (proj2 (Hm (base_addr (snd an)) (wf_base _ H1))) as (? & [] & _). exists (snd an). split; [now left|apply member_base].
  - pose proof (c44_sorted R F (map snd l1) r Wl E) as S1. pose proof (c41_irredundant R F (map snd l1) r C1 E) as I1.
    clear - R S1 I1 Cr. induction S1 as [|n r S1 IH Hn]; constructor.
    + apply IH; [now inversion Cr|]. intros x y Hx Hy. apply I1; now right.
    + rewrite Forall_forall in *. intros n' Hn' x y Vx Vy Mx My. specialize (Hn n' Hn').
      destruct (Cr n (or_introl eq_refl)) as [p Cn]. destruct (Cr n' (or_intror Hn')) as [p' Cn'].
      assert (Vb : valid (base_addr n')) by (apply wf_base, Cn').
      destruct (N.lt_ge_cases (value x) (value y)) as [L|L]; [exact L|exfalso].
      pose proof (proj1 (member_interval n p x Cn Vx) Mx) as Jx. pose proof (proj1 (member_interval n' p' y Cn' Vy) My) as Jy.
      assert (n = n') as <-.
      { apply (I1 n n' (or_introl eq_refl) (or_intror Hn')). exists (base_addr n'). split; [exact Vb|]. split; [|apply member_base].
        apply (member_interval n p _ Cn Vb). clear - Hn Jx Jy L. revert Hn Jx Jy L. generalize (2 ^ (width F - p)). intros; lia. }
      clear - Hn. lia.
  - exists l. split; [|split; [exact Sl|exact El]]. intros x. rewrite Hl. split; intros (V & n & H); (split; [exact V|]).
    + destruct (proj1 (Hm x V) (ex_intro _ n H)) as (k & Hk & Mk). clear -M1 Hk Mk. induction M1 as [|s [a m] ss l Ms M IH]; [contradiction|].
      destruct Hk as [<-|Hk]; [exists s, a, m; split; [now left|now split]|]. destruct (IH Hk) as (t & b & k' & Ht & K). exists t, b, k'. split; [now right|exact K].
    + destruct H as (c & m & Hn & Mn & Mx). apply (Hm x V). exists m. split; [|exact Mx].
      assert (exists l2, Forall2 (fun s (an : addr F * net F) => means F s (fst an) (snd an)) [n] l2 /\ map snd l2 = [m]) as (l2 & M2 & E2).
      { exists [(c, m)]. split; [|reflexivity]. constructor; [exact Mn|constructor]. }
      apply (nets_same R F [n] ss l2 l1 M2 M1); [|rewrite E2; now left]. intros z [<-|[]]. exact Hn.
Qed.
