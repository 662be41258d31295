(** * Pf_Synonym: proofs about command lines that say the same *)
From Verif Require Import RustBase Addr Net Parse Console ShowNet Main Messages Process Sink Screen Family Spec SpecMain SpecProcess SpecMessages SpecTold SpecRefuse SpecSynonym.
From Verif Require Import Demo Pf_Netspec Pf_Main Pf_Process Pf_Pipes Pf_Told Pf_Refuse Pf_Text Pf_Split SpecShow.
From Verif Require Pf_Messages.

(** ** Arguments *)
Lemma place_parsed (R : Rust) s t : same_place s t -> parse_netspec s = parse_netspec t.
Proof. intros [->|(F & a & n & Hs & Ht)]; [reflexivity|]. apply (parse_means R) in Hs, Ht. congruence. Qed.
Lemma place_word s t : same_place s t -> ~ In s command_words -> ~ In t command_words.
Proof.
  intros [->|(F & a & n & _ & Ht)]; [trivial|]. intros _ Hin.
  apply (parse_means debug_env) in Ht. revert Ht. repeat (destruct Hin as [<-|Hin]; [destruct F; discriminate|]). now destruct Hin.
Qed.
Lemma net_parsed (R : Rust) s t : same_net s t ->
  s = t \/ exists F (a b : addr F) (n : net F), parse_netspec s = Ret (ROk (spec_of F a n)) /\ parse_netspec t = Ret (ROk (spec_of F b n)).
Proof.
  intros [->|(F & a & b & n & Hs & Ht)]; [now left|]. right. exists F, a, b, n. split; now apply (parse_means R).
Qed.
Lemma address_parsed s t : same_address s t -> parse_addr s = parse_addr t.
Proof. intros [->|(F & a & Hs & Ht)]; [reflexivity|]. apply c34_address in Hs, Ht. congruence. Qed.
Lemma counts_parsed ss ts : Forall2 same_count ss ts -> forall acc, parse_host_counts ss acc = parse_host_counts ts acc.
Proof.
  intros H. induction H as [|s t ss ts [->|(c & Hs & Ht)] H IH]; intros acc; [reflexivity| |].
  - cbn [parse_host_counts]. destruct (parse_bigint t) as [c|e]; [|reflexivity]. destruct (c <? 0)%Z; [reflexivity|apply IH].
  - cbn [parse_host_counts]. apply c63_host_count in Hs, Ht. rewrite Hs, Ht. destruct (c <? 0)%Z; [reflexivity|apply IH].
Qed.

(** ** Commands *)
Section Commands.
  Context (R : Rust) (T : Terminal).

  Lemma show_same ss ts : Forall2 same_place ss ts -> forall acc, show_parse ss acc = show_parse ts acc.
  Proof.
    intros H. induction H as [|s t ss ts E H IH]; intros acc; [reflexivity|].
    cbn [show_parse]. rewrite (place_parsed R s t E). destruct (parse_netspec t) as [[x|e]| |]; cbn [bind]; [apply IH| | |]; reflexivity.
  Qed.

  Lemma specs4_same ss ts : Forall2 same_net ss ts -> forall acc acc', map snd acc = map snd acc' ->
    match specs4_loop ss acc, specs4_loop ts acc' with
    | Ret (ROk (Specs4 l)), Ret (ROk (Specs4 l')) => map snd l = map snd l'
    | Ret (ROk (Specs6 l)), Ret (ROk (Specs6 l')) => map snd l = map snd l'
    | x, y => x = y
    end.
  Proof.
    intros H. induction H as [|s t ss ts E H IH]; intros acc acc' Ea; cbn [specs4_loop]; [exact Ea|].
    destruct (net_parsed R s t E) as [->|(F & a & b & n & Es & Et)].
    - destruct (parse_netspec t) as [[[a n|a n]|e]| |]; cbn [bind]; try reflexivity. apply IH. rewrite !map_app. cbn [map snd]. now rewrite Ea.
    - rewrite Es, Et. destruct F; cbn [bind spec_of]; [|reflexivity]. apply IH. rewrite !map_app. cbn [map snd]. now rewrite Ea.
  Qed.
  Lemma specs6_same ss ts : Forall2 same_net ss ts -> forall acc acc', map snd acc = map snd acc' ->
    match specs6_loop ss acc, specs6_loop ts acc' with
    | Ret (ROk (Specs4 l)), Ret (ROk (Specs4 l')) => map snd l = map snd l'
    | Ret (ROk (Specs6 l)), Ret (ROk (Specs6 l')) => map snd l = map snd l'
    | x, y => x = y
    end.
  Proof.
    intros H. induction H as [|s t ss ts E H IH]; intros acc acc' Ea; cbn [specs6_loop]; [exact Ea|].
    destruct (net_parsed R s t E) as [->|(F & a & b & n & Es & Et)].
    - destruct (parse_netspec t) as [[[a n|a n]|e]| |]; cbn [bind]; try reflexivity. apply IH. rewrite !map_app. cbn [map snd]. now rewrite Ea.
    - rewrite Es, Et. destruct F; cbn [bind spec_of]; [reflexivity|]. apply IH. rewrite !map_app. cbn [map snd]. now rewrite Ea.
  Qed.
  Lemma specs_same ss ts : Forall2 same_net ss ts ->
    match parse_same_family_netspecs ss, parse_same_family_netspecs ts with
    | Ret (ROk (Specs4 l)), Ret (ROk (Specs4 l')) => map snd l = map snd l'
    | Ret (ROk (Specs6 l)), Ret (ROk (Specs6 l')) => map snd l = map snd l'
    | x, y => x = y
    end.
  Proof.
    intros [|s t ss' ts' E H]; cbn [parse_same_family_netspecs]; [reflexivity|].
    destruct (net_parsed R s t E) as [->|(F & a & b & n & Es & Et)].
    - destruct (parse_netspec t) as [[[a n|a n]|e]| |]; cbn [bind]; try reflexivity; [apply specs4_same|apply specs6_same]; auto.
    - rewrite Es, Et. destruct F; cbn [bind spec_of]; [apply specs4_same|apply specs6_same]; auto.
  Qed.

  Lemma minimize_same prog prog' w w' ss ts : Forall2 same_net ss ts -> minimize (prog :: w :: ss) = minimize (prog' :: w' :: ts).
  Proof.
    intros H. unfold minimize. cbn [skipn]. pose proof (specs_same ss ts H) as K.
    assert (Nat.ltb (List.length (prog :: w :: ss)) 3 = Nat.ltb (List.length (prog' :: w' :: ts)) 3) as ->.
    { cbn [List.length]. now rewrite (Forall2_len _ _ _ H). }
    destruct (Nat.ltb _ 3); [reflexivity|].
    assert ((exists l l', parse_same_family_netspecs ss = Ret (ROk (Specs4 l)) /\ parse_same_family_netspecs ts = Ret (ROk (Specs4 l')) /\ map snd l = map snd l') \/
            (exists l l', parse_same_family_netspecs ss = Ret (ROk (Specs6 l)) /\ parse_same_family_netspecs ts = Ret (ROk (Specs6 l')) /\ map snd l = map snd l') \/
            parse_same_family_netspecs ss = parse_same_family_netspecs ts) as [(l & l' & E1 & E2 & E)|[(l & l' & E1 & E2 & E)|E]].
    { revert K. generalize (parse_same_family_netspecs ss), (parse_same_family_netspecs ts). clear. intros x y K.
      destruct x as [[[| |l|l]|e]| |]; try (right; right; exact K); destruct y as [[[| |l'|l']|e']| |]; try (right; right; exact K);
        [left|right; left]; now exists l, l'. }
    - rewrite E1, E2, !io_lift_ret, E. reflexivity.
    - rewrite E1, E2, !io_lift_ret, E. reflexivity.
    - rewrite E. reflexivity.
  Qed.
  Lemma enumerate_loop_same ss ts : Forall2 same_net ss ts -> forall z, enumerate_loop ss z = enumerate_loop ts z.
  Proof.
    intros H. induction H as [|s t ss ts E H IH]; intros z; [reflexivity|]. cbn [enumerate_loop].
    destruct (net_parsed R s t E) as [->|(F & a & b & n & Es & Et)].
    - destruct (parse_netspec t) as [[[a n|a n]|e]| |]; try reflexivity; rewrite !io_lift_ret, IH; reflexivity.
    - rewrite Es, Et, !io_lift_ret. destruct F; cbn [spec_of]; now rewrite IH.
  Qed.
  Lemma enumerate_same prog prog' w w' ss ts : Forall2 same_net ss ts -> enumerate (prog :: w :: ss) = enumerate (prog' :: w' :: ts).
  Proof.
    intros H. unfold enumerate. cbn [skipn].
    assert (Nat.ltb (List.length (prog :: w :: ss)) 3 = Nat.ltb (List.length (prog' :: w' :: ts)) 3) as ->.
    { cbn [List.length]. now rewrite (Forall2_len _ _ _ H). }
    destruct (Nat.ltb _ 3); [reflexivity|]. now apply enumerate_loop_same.
  Qed.
  Lemma derange_same prog prog' w w' ss ts : Forall2 same_address ss ts -> derange (prog :: w :: ss) = derange (prog' :: w' :: ts).
  Proof.
    intros H. destruct H as [|s t ss ts E H]; [reflexivity|]. destruct H as [|s' t' ss ts E' H]; [reflexivity|].
    destruct H as [|? ? ss ts ? H]; [|reflexivity]. unfold derange. now rewrite (address_parsed s t E), (address_parsed s' t' E').
  Qed.
  Lemma split_same prog prog' w w' s t ss ts : same_net s t -> Forall2 same_count ss ts ->
    Main.split (prog :: w :: s :: ss) = Main.split (prog' :: w' :: t :: ts).
  Proof.
    intros E H. unfold Main.split. pose proof (counts_parsed ss ts H []) as K. destruct H as [|c d ss ts Ec H]; [reflexivity|].
    rewrite K. destruct (parse_host_counts (d :: ts) []) as [cs|m]; [|reflexivity].
    destruct (net_parsed R s t E) as [->|(F & a & b & n & Es & Et)]; [reflexivity|]. rewrite Es, Et, !io_lift_ret. now destruct F.
  Qed.

  (** Resizing, once network and mask are known. *)
  Lemma resize_known (F : family) prog w s t (a : addr F) (n : net F) (m : addr F) : means F s a n -> mask_text F t m ->
    resize [prog; w; s; t] = io_bind (resize_and_output n m (show_of F)) (fun _ => io_ret 0%Z).
  Proof.
    intros Hs Ht. destruct (subnet_mask_text R F t m Ht) as [_ Pt]. apply (parse_means R) in Hs.
    unfold resize. rewrite Hs, io_lift_ret.
    destruct F; cbn [spec_of]; destruct Pt as [Pt|(p & Pt & Hp & Ep)]; rewrite Pt, io_lift_ret; try reflexivity.
    - rewrite (proj2 (N.ltb_ge 32 p) Hp). apply (f_equal unwrap) in Ep. exact (eq_trans (f_equal (fun x => io_bind (io_lift x) _) Ep) (io_lift_ret _ _)).
    - rewrite (proj2 (N.ltb_ge 128 p) Hp). apply (f_equal unwrap) in Ep. exact (eq_trans (f_equal (fun x => io_bind (io_lift x) _) Ep) (io_lift_ret _ _)).
  Qed.
  Lemma resize_nets prog prog' w w' s t ss : same_net s t -> resize (prog :: w :: s :: ss) = resize (prog' :: w' :: t :: ss).
  Proof.
    intros E. destruct ss as [|m [|? ?]]; try reflexivity. unfold resize.
    destruct (net_parsed R s t E) as [->|(F & a & b & n & Es & Et)]; [reflexivity|]. rewrite Es, Et, !io_lift_ret. now destruct F.
  Qed.
  Lemma resize_same prog prog' w w' s t ss ts : same_net s t -> Forall2 (same_mask s) ss ts ->
    resize (prog :: w :: s :: ss) = resize (prog' :: w' :: t :: ts).
  Proof.
    intros E H. rewrite <- (resize_nets prog prog' w w' s t ts E). destruct H as [|m m' ss ts Em H]; [reflexivity|].
    destruct H as [|? ? ss ts ? H]; [|reflexivity].
    destruct Em as [->|(F & k & (a & n & M) & Hm & Hm')]; [reflexivity|].
    now rewrite (resize_known F prog w s m a n k M Hm), (resize_known F prog w s m' a n k M Hm').
  Qed.
End Commands.

Lemma c100_run : forall (R : Rust) (T : Terminal) (prog prog' : str) (ss ts : list str),
  synonyms ss ts -> do_main (prog :: ss) = do_main (prog' :: ts).
Proof.
  intros R T prog prog' ss ts H. destruct H as [ss ts Hw H|w w' ss ts Hw Hw' H|w w' ss ts Hw Hw' H|w w' ss ts Hw Hw' H|w w' s t ss ts Hw Hw' E H|w w' s t ss ts Hw Hw' E H].
  - destruct H as [|s t ss ts E H]; [reflexivity|]. specialize (Hw s eq_refl).
    rewrite !run_show by (try exact Hw; exact (place_word s t E Hw)). unfold show_net. cbn [tl].
    rewrite (show_same R (s :: ss) (t :: ts) (Forall2_cons _ _ E H) []). reflexivity.
  - rewrite !run_minimize by assumption. now apply minimize_same.
  - rewrite !run_enumerate by assumption. now apply enumerate_same.
  - rewrite !run_derange by assumption. now apply derange_same.
  - rewrite !Pf_Main.run_split by assumption. now apply split_same.
  - rewrite !run_resize by assumption. now apply resize_same.
Qed.

(** ** Processes *)
Lemma same_unicode (Q : str -> str -> Prop) ss ts :
  (forall s t, Q s t -> s = t \/ unicode s /\ unicode t) -> Forall2 Q ss ts -> (Forall unicode ss <-> Forall unicode ts).
Proof.
  intros K H. induction H as [|s t ss ts E H IH]; [tauto|]. specialize (K s t E). rewrite !Forall_cons_iff, IH.
  destruct K as [->|[Ks Kt]]; tauto.
Qed.
Lemma place_unicode s t : same_place s t -> s = t \/ unicode s /\ unicode t.
Proof. intros [H|(F & a & n & Hs & Ht)]; [now left|right]. split; eapply means_unicode; eassumption. Qed.
Lemma net_unicode s t : same_net s t -> s = t \/ unicode s /\ unicode t.
Proof. intros [H|(F & a & b & n & Hs & Ht)]; [now left|right]. split; eapply means_unicode; eassumption. Qed.
Lemma same_address_unicode s t : same_address s t -> s = t \/ unicode s /\ unicode t.
Proof. intros [H|(F & a & Hs & Ht)]; [now left|right]. split; eapply address_unicode; eassumption. Qed.
Lemma same_count_unicode s t : same_count s t -> s = t \/ unicode s /\ unicode t.
Proof. intros [H|(c & Hs & Ht)]; [now left|right]. split; eapply count_unicode; eassumption. Qed.
Lemma same_mask_unicode n s t : same_mask n s t -> s = t \/ unicode s /\ unicode t.
Proof. intros [H|(F & m & _ & Hs & Ht)]; [now left|right]. split; eapply mask_unicode; eassumption. Qed.

Lemma synonyms_unicode ss ts : synonyms ss ts -> (Forall unicode ss <-> Forall unicode ts).
Proof.
  assert (Word : forall l w, forallb is_utf8 l = true -> In w l -> forall ss, Forall unicode (w :: ss) <-> Forall unicode ss).
  { intros l w Hl Hw us. rewrite Forall_cons_iff. pose proof (word_unicode l w Hl Hw). tauto. }
  intros [us vs Hw H|w w' us vs Hw Hw' H|w w' us vs Hw Hw' H|w w' us vs Hw Hw' H|w w' s t us vs Hw Hw' E H|w w' s t us vs Hw Hw' E H].
  - exact (same_unicode _ _ _ place_unicode H).
  - rewrite (Word minimize_words w), (Word minimize_words w') by (reflexivity || assumption). exact (same_unicode _ _ _ net_unicode H).
  - rewrite (Word enumerate_words w), (Word enumerate_words w') by (reflexivity || assumption). exact (same_unicode _ _ _ net_unicode H).
  - rewrite (Word derange_words w), (Word derange_words w') by (reflexivity || assumption). exact (same_unicode _ _ _ same_address_unicode H).
  - rewrite (Word split_words w), (Word split_words w') by (reflexivity || assumption).
    rewrite !(Forall_cons_iff unicode), (same_unicode _ _ _ same_count_unicode H).
    destruct (net_unicode s t E) as [->|[Hs Ht]]; tauto.
  - rewrite (Word resize_words w), (Word resize_words w') by (reflexivity || assumption).
    rewrite !(Forall_cons_iff unicode), (same_unicode _ _ _ (same_mask_unicode s) H).
    destruct (net_unicode s t E) as [->|[Hs Ht]]; tauto.
Qed.

Lemma c100_process : forall (U : Unicode) (R : Rust) (T : Terminal) (prog prog' : str) (ss ts : list str),
  synonyms ss ts -> unicode prog -> unicode prog' ->
  main (prog :: ss) = main (prog' :: ts) /\
  forall S : Stdio,
    (forall out err : kind, main_on out err (prog :: ss) = main_on out err (prog' :: ts)) /\
    (forall (k : kind) (blame : str), main_screen k blame (prog :: ss) = main_screen k blame (prog' :: ts)).
Proof.
  intros U R T prog prog' ss ts H Hp Hp'.
  assert (B : forallb is_utf8 (prog :: ss) = forallb is_utf8 (prog' :: ts)).
  { apply Bool.eq_iff_eq_true. rewrite !utf8_args, !Forall_cons_iff, (synonyms_unicode ss ts H). tauto. }
  pose proof (c100_run R T prog prog' ss ts H) as E. split.
  - unfold main, run_of. now rewrite B, E.
  - intros K. split; intros; [unfold main_on|unfold main_screen]; now rewrite B, E.
Qed.

(** ** One network *)
Lemma meaning_parsed (R : Rust) s t : same_meaning s t -> ~ nonsense s -> parse_netspec s = parse_netspec t.
Proof.
  intros M Hs. destruct (Pf_Main.sensible R s Hs) as (F & a & n & E & H). rewrite E. symmetry. apply (parse_means R). now apply M.
Qed.
Lemma show_parsed (R : Rust) (T : Terminal) prog s t : ~ In s command_words -> ~ In t command_words ->
  parse_netspec s = parse_netspec t -> do_main [prog; s] = do_main [prog; t].
Proof.
  intros Hs Ht E. rewrite !run_show by assumption. unfold show_net. cbn [tl show_parse]. now rewrite E.
Qed.
Lemma nonsense_dec (R : Rust) s : nonsense s \/ ~ nonsense s.
Proof.
  destruct (c31_returns R s) as ([n|e] & E).
  - right. intros K. apply (parse_nonsense R) in K. destruct K as (e & K). congruence.
  - left. apply (parse_nonsense R). now exists e.
Qed.

Lemma c100_describe : forall (U : Unicode) (R : Rust) (T : Terminal) (prog s t : str),
  unicode prog -> unicode s -> unicode t -> ~ In s command_words -> ~ In t command_words ->
  (main [prog; s] = main [prog; t] <->
   same_meaning s t /\ forall e, netspec_refused usize_bits s e <-> netspec_refused usize_bits t e).
Proof.
  intros U R T prog s t Hp Us Ut Hs Ht.
  assert (As : Forall unicode [prog; s]) by (repeat (apply Forall_cons; [assumption|]); apply Forall_nil).
  assert (At : Forall unicode [prog; t]) by (repeat (apply Forall_cons; [assumption|]); apply Forall_nil).
  assert (Ws : forall w, hd_error [s] = Some w -> ~ In w command_words) by (intros w [= <-]; exact Hs).
  assert (Wt : forall w, hd_error [t] = Some w -> ~ In w command_words) by (intros w [= <-]; exact Ht).
  assert (Good : forall u, (forall w, hd_error [u] = Some w -> ~ In w command_words) -> ~ nonsense u -> show_request [u]).
  { intros u Hu K. split; [discriminate|]. split; [exact Hu|]. intros v [<-|[]]. exact K. }
  assert (Well : forall u, (forall w, hd_error [u] = Some w -> ~ In w command_words) -> ~ nonsense u -> snd (do_main [prog; u]) = Ret 0%Z).
  { intros u Hu K. destruct (Good u Hu K) as (G1 & G2 & G3). destruct (c62_show R prog [u] G1 G2 G3) as (mss & _ & D). now rewrite (D T). }
  assert (Bad : forall u e, (forall w, hd_error [u] = Some w -> ~ In w command_words) -> netspec_refused usize_bits u e ->
     do_main [prog; u] = (map (paint colors_enabled) [Problem (MsgError e)], Ret 1%Z)).
  { intros u e Hu K. exact (c87_show R prog [] [] u e Hu (fun _ H => match H with end) K T). }
  split.
  - intros E. destruct (nonsense_dec R s) as [Ns|Gs], (nonsense_dec R t) as [Nt|Gt].
    + split. { intros F a n. split; intros K; exfalso; [exact (Ns F a n K)|exact (Nt F a n K)]. }
      destruct (nonsense_refused s Ns) as (e & Ke), (nonsense_refused t Nt) as (f & Kf).
      assert (e = f) as <-.
      { apply (f_equal on_stderr) in E. apply (Pf_Messages.c73_told_apart U U R R T T _ _ As At) in E.
        rewrite (Bad s e Ws Ke), (Bad t f Wt Kf) in E. cbn [fst] in E. cbv [map paint problems flat_map app] in E. congruence. }
      intros g. rewrite <- !(c87_netspec R). apply (c87_netspec R) in Ke, Kf. now rewrite Ke, Kf.
    + exfalso. destruct (nonsense_refused s Ns) as (e & Ke). rewrite !main_run in E by assumption. apply (f_equal ended) in E. cbn [ended] in E.
      rewrite (Bad s e Ws Ke), (Well t Wt Gt) in E. discriminate E.
    + exfalso. destruct (nonsense_refused t Nt) as (e & Ke). rewrite !main_run in E by assumption. apply (f_equal ended) in E. cbn [ended] in E.
      rewrite (Bad t e Wt Ke), (Well s Ws Gs) in E. discriminate E.
    + apply (f_equal on_stdout) in E. apply (c77_told U R R T prog prog [s] [t] Hp Hp (Good s Ws Gs) (Good t Wt Gt)) in E.
      inversion E as [|? ? ? ? M _]; subst. split; [exact M|]. intros e. rewrite <- !(c87_netspec R), (meaning_parsed R s t M Gs). reflexivity.
  - intros [M K].
    assert (E : parse_netspec s = parse_netspec t).
    { destruct (nonsense_dec R s) as [Ns|Gs]; [|now apply meaning_parsed].
      destruct (nonsense_refused s Ns) as (e & Ke). pose proof (proj1 (K e) Ke) as Ke'. apply (c87_netspec R) in Ke, Ke'. congruence. }
    rewrite !main_run by assumption. now rewrite (show_parsed R T prog s t Hs Ht E).
Qed.

Lemma c100_run_ex :
  synonyms [lit "-r"; lit "10.0.0.0/8"; lit "16"] [lit "--resize"; lit "10.1.2.3/-0.255.255.255"; lit "255.255.0.0"] /\
  @do_main debug_env plain [lit "ripcalc"; lit "-r"; lit "10.0.0.0/8"; lit "9"] =
  @do_main debug_env plain [lit "./ripcalc"; lit "--resize"; lit "10.1.2.3/-0.255.255.255"; lit "255.128.0.0"] /\
  @do_main debug_env plain [lit "ripcalc"; lit "-d"; lit "x"; lit "10.0.0.0"] <>
  @do_main debug_env plain [lit "ripcalc"; lit "-d"; lit "10.0.0.0"; lit "x"].
Proof.
  assert (P1 : exists a n, means V4 (lit "10.0.0.0/8") a n /\ exists b, means V4 (lit "10.1.2.3/-0.255.255.255") b n).
  { assert (exists a b n, @parse_netspec debug_env (lit "10.0.0.0/8") = Ret (ROk (Spec4 a n)) /\ @parse_netspec debug_env (lit "10.1.2.3/-0.255.255.255") = Ret (ROk (Spec4 b n))) as (a & b & n & Ea & Eb).
    { eexists _, _, _. split; vm_compute; reflexivity. }
    exists a, n. split; [|exists b]; apply (parse_means debug_env V4); assumption. }
  destruct P1 as (a & n & Ha & b & Hb).
  split; [|split].
  - apply synonyms_resize; [now left|right; now left| |].
    + right. exists V4, a, b, n. now split.
    + apply Forall2_cons; [|apply Forall2_nil]. right. exists V4, (Ipv4 4294901760).
      split; [now exists a, n|]. split.
      * right. exists 16. split; [apply (c34_subnet debug_env); vm_compute; reflexivity|]. split; [discriminate|]. split; vm_compute; reflexivity.
      * left. apply c34_address. vm_compute. reflexivity.
  - vm_compute. reflexivity.
  - vm_compute. discriminate.
Qed.
Lemma c100_describe_ex :
  let out s := @main no_unicode debug_env plain [lit "ripcalc"; s] in
  out (lit "10.0.0.256/8") = out (lit "10.0.0.256/9") /\ out (lit "10.0.0.1/8") = out (lit "010.0.0.1/255.0.0.0") /\
  out (lit "x") <> out (lit "y").
Proof. cbv zeta. split; [vm_compute; reflexivity|]. split; [vm_compute; reflexivity|]. vm_compute. discriminate. Qed.
