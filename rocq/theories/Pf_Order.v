(** * Pf_Order: proofs about arguments in another order *)
From Verif Require Import RustBase Addr Net Parse Split Console Main Messages Process Family Spec SpecText SpecShow SpecMain SpecProcess SpecOrdering.
From Verif Require Import Demo SplitFacts Pf_Netspec Pf_Split Pf_Main Pf_Process Pf_Pipes Pf_Args.
From Verif Require Import Pf_Runs.
From Verif Require Pf_Whole Pf_Told.
From Coq Require Import ZifyBool ZifyNat ZifyN.
Ltac Zify.zify_post_hook ::= idtac.

(** ** Splitting *)
Lemma run_start_perm {F : family} (n : net F) cs cs' : Permutation cs cs' -> run_start n cs = run_start n cs'.
Proof. intros P. unfold run_start. now rewrite (largest_perm cs cs' P). Qed.

Lemma c101_split_subnet : forall (R R' : Rust) (F : family) (n : net F) (cs cs' : list Z),
  wf_net n -> Permutation cs cs' ->
  match @split_subnet R (addr F) (@addr_ops R F) n cs, @split_subnet R' (addr F) (@addr_ops R' F) n cs' with
  | Ret (Some r), Ret (Some r') => Permutation (combine cs r) (combine cs' r')
  | Ret None, Ret None => True
  | _, _ => False
  end.
Proof.
  intros R R' F n cs cs2 Hn P. destruct (split_parts R F n cs Hn) as [P1 P2]. destruct (split_parts R' F n cs2 Hn) as [P1' P2'].
  rewrite <- (run_start_perm n cs cs2 P), <- (total_perm cs cs2 P) in P1', P2'.
  revert P1 P2 P1' P2'.
  generalize (@split_subnet R (addr F) (@addr_ops R F) n cs). generalize (@split_subnet R' (addr F) (@addr_ops R' F) n cs2).
  intros o' o P1 P2 P1' P2'. destruct (N.lt_ge_cases (run_start n cs + total cs) (2 ^ width F)) as [H|H].
  - destruct (P1 H) as (r & ns & -> & Pm & Hr & Hc & Hs & Hp & cc & Sc & Pc & Lc & Hcc).
    destruct (P1' H) as (r' & ns' & -> & Pm' & Hr' & Hc' & Hs' & Hp' & cc' & Sc' & Pc' & Lc' & Hcc').
    assert (E : ns = ns').
    { apply (run_same ns ns' _ Hr Hr'). apply pre_prefix; try assumption.
      apply sorted_perm_eq; try assumption.
      rewrite <- (Permutation_map pre Pm), <- (Permutation_map pre Pm').
      transitivity (map (fun o : option N => match o with Some p => p | None => 0 end) (map cidr_prefix r)); [rewrite map_map; reflexivity|].
      transitivity (map (fun o : option N => match o with Some p => p | None => 0 end) (map cidr_prefix r')); [|rewrite map_map; reflexivity].
      rewrite Hp, Hp'. apply Permutation_map, Permutation_map, P. }
    assert (cc = cc') by (apply desc_perm_eq; [assumption..|]; now rewrite Pc, Pc').
    rewrite Hcc, Hcc'. subst. reflexivity.
  - rewrite (P2 H), (P2' H). exact Logic.I.
Qed.

Lemma described_perm2 (R : Rust) F (cs cs' : list Z) (r r' : list (net F)) mss mss' : Forall wf_net r ->
  List.length cs = List.length r -> List.length cs' = List.length r' ->
  Forall2 (fun e ms => described e None ms) r mss -> Forall2 (fun e ms => described e None ms) r' mss' ->
  Permutation (combine cs r) (combine cs' r') -> Permutation (combine cs mss) (combine cs' mss').
Proof.
  intros W L L' H H' P. apply (Pf_Whole.described_combine R F cs r mss L) in H. apply (Pf_Whole.described_combine R F cs' r' mss' L') in H'.
  destruct (Permutation_Forall2 P H) as (q & Pq & Hq). rewrite Pq. replace q with (combine cs' mss'); [reflexivity|].
  assert (Wc : Forall (fun p => wf_net (snd p)) (combine cs' r')).
  { rewrite <- P. apply Forall_forall. intros p Hp. rewrite Forall_forall in W. apply W. destruct p as [c e]. now apply in_combine_r in Hp. }
  clear -H' Hq Wc. revert H' Hq Wc. generalize (combine cs' mss'). generalize (combine cs' r'). intros l. revert q.
  induction l as [|p l IH]; intros q q' H' Hq Wc; inversion H' as [|? x ? ? [E1 D1] G1]; subst; inversion Hq as [|? y ? ? [E2 D2] G2]; subst; [reflexivity|].
  inversion Wc as [|? ? Wp Wc']; subst. f_equal; [|now apply IH]. destruct x, y. cbn [fst snd] in *. f_equal; [congruence|].
  now apply (c67_described_once R F (snd p) None).
Qed.

Lemma c101_split : forall (R : Rust) (F : family) (prog prog' w w' s : str) (ss ss' : list str) (a : addr F) (n : net F) (cs cs' : list Z),
  In w split_words -> In w' split_words -> means F s a n -> counts_text ss cs -> counts_text ss' cs' -> Permutation cs cs' ->
  exists first mss mss' rest r, Permutation (combine cs mss) (combine cs' mss') /\
    forall T : Terminal,
      do_main (prog :: w :: s :: ss) = (map (paint colors_enabled) (split_marks first cs mss ++ rest), r) /\
      do_main (prog' :: w' :: s :: ss') = (map (paint colors_enabled) (split_marks first cs' mss' ++ rest), r).
Proof.
  intros R F prog prog' w w' s ss ss' a n cs cs' Hw Hw' Hs Hc Hc' P. destruct (means_wf R F s a n Hs) as [_ Wn].
  assert (cs <> []) as Hne by (destruct Hc as (Hne & H2 & _); destruct H2; congruence).
  assert (cs' <> []) as Hne' by (destruct Hc' as (Hne' & H2 & _); destruct H2; congruence).
  destruct (Pf_Net.c25_last_addr R F n Wn) as (h & _ & Hh).
  destruct (split_io R F n cs h Wn Hne Hh) as (first & D & P1 & P2).
  destruct (split_io R F n cs' h Wn Hne' Hh) as (first' & D' & P1' & P2').
  assert (first' = first) as -> by exact (c67_described_once R F n None first' first Wn D' D).
  rewrite <- (run_start_perm n cs cs' P), <- (total_perm cs cs' P) in P1', P2'.
  assert (Si : split_inside n cs <-> split_inside n cs').
  { unfold split_inside. now rewrite (run_start_perm n cs cs' P), (total_perm cs cs' P). }
  pose proof (fun T => split_run R T F prog w s ss a n cs Hw Hs Hc) as E.
  pose proof (fun T => split_run R T F prog' w' s ss' a n cs' Hw' Hs Hc') as E'.
  assert (split_marks first [] [] = split_marks first cs []) as N1 by (unfold split_marks; now destruct cs).
  assert (split_marks first [] [] = split_marks first cs' []) as N2 by (unfold split_marks; now destruct cs').
  destruct (N.lt_ge_cases (top F) (run_start n cs + total cs)) as [Ht|Ht].
  - destruct (P1 Ht) as [_ G]. destruct (P1' Ht) as [_ G']. exists first, [], [], [says (lit "Not enough addresses available for this split.")], (Ret 1%Z).
    split; [now destruct cs, cs'|]. intros T. rewrite E, E', <- N1, <- N2. split; [apply G|apply G'].
  - destruct (P2 Ht) as (r & mss & b & Er & Dm & Vb & Eb & Q1 & Q2). destruct (P2' Ht) as (r' & mss' & b' & Er' & Dm' & Vb' & Eb' & Q1' & Q2').
    assert (b' = b) as -> by (apply value_inj; try assumption; congruence).
    assert (Pm : Permutation (combine cs mss) (combine cs' mss')).
    { pose proof (c101_split_subnet R R F n cs cs' Wn P) as K. rewrite Er, Er' in K.
      pose proof (c46_one_per_request R F n cs r Wn Er) as O. pose proof (c46_one_per_request R F n cs' r' Wn Er') as O'.
      apply (described_perm2 R F cs cs' r r'); try assumption.
      - clear - O. induction O as [|c m cs r [_ [Wm _]] O IH]; constructor; assumption.
      - exact (Pf_Text.Forall2_len _ _ _ O).
      - exact (Pf_Text.Forall2_len _ _ _ O'). }
    destruct (inside_dec R n cs Wn Hne) as [I|I].
    + exists first, mss, mss', (says (lit "Unused networks:") ::
             match range_to_subnets b h with Ret us => map (fun u => says (net_display u)) us | _ => [] end),
           (match range_to_subnets b h with Ret us => Ret 0%Z | Panic => Panic | Diverge => Diverge end).
      split; [exact Pm|]. intros T. rewrite E, E'. split; [exact (Q2 I T)|exact (Q2' (proj1 Si I) T)].
    + exists first, mss, mss', [says (lit "Network is too small")], (Ret 0%Z). split; [exact Pm|].
      intros T. rewrite E, E'. split; [exact (Q1 I T)|]. apply Q1'. now rewrite <- Si.
Qed.

(** ** Listing *)
Section List.
  Context (U : Unicode) (R : Rust) (T : Terminal) (prog w : str) (Hw : In w enumerate_words) (Hp : unicode prog).
  Lemma list_each ss : ss <> [] -> Forall unicode ss ->
    on_stdout (main (prog :: w :: ss)) = flat_map (fun s => on_stdout (main [prog; w; s])) ss /\
    on_stderr (main (prog :: w :: ss)) = flat_map (fun s => on_stderr (main [prog; w; s])) ss /\
    (ended (main (prog :: w :: ss)) = Ret 0%Z /\ (forall s, In s ss -> ended (main [prog; w; s]) = Ret 0%Z) \/
     ended (main (prog :: w :: ss)) = Ret 1%Z /\ exists s, In s ss /\ ended (main [prog; w; s]) = Ret 1%Z).
  Proof.
    induction ss as [|s ss IH]; intros Hne Hu; [congruence|]. inversion Hu as [|? ? Hs Hss]; subst. destruct ss as [|t ss].
    - cbn [flat_map]. rewrite !app_nil_r. split; [reflexivity|]. split; [reflexivity|].
      destruct (c62_enumerate R prog w [s] Hw) as (m & z & _ & Hz & D); [discriminate|].
      assert (E : ended (main [prog; w; s]) = Ret z).
      { rewrite main_run; [now rewrite (D T)|]. apply Forall_cons; [exact Hp|]. apply Forall_cons; [now apply (word_unicode enumerate_words)|exact Hu]. }
      rewrite E. destruct Hz as [[-> _]|[-> _]]; [left|right]; (split; [reflexivity|]).
      + intros u [<-|[]]. exact E.
      + exists s. split; [now left|exact E].
    - destruct (IH ltac:(discriminate) Hss) as (O & Er & St).
      destruct (c86_enumerate U R T prog w [s] (t :: ss) Hw ltac:(discriminate) ltac:(discriminate) (Forall_cons _ Hp Hu)) as (O' & Er' & St').
      cbn [List.app] in O', Er', St'. rewrite O', Er', O, Er. split; [reflexivity|]. split; [reflexivity|].
      destruct St' as [(E1 & E2 & E3)|(E1 & E2)]; [left|right]; (split; [exact E1|]).
      + intros u [<-|Hin]; [exact E2|]. destruct St as [[_ St]|[St _]]; [now apply St|congruence].
      + destruct E2 as [E2|E2]; [exists s; split; [now left|exact E2]|]. destruct St as [[St _]|[_ (u & Hin & Eu)]]; [congruence|].
        exists u. split; [now right|exact Eu].
  Qed.
End List.

Lemma c101_enumerate : forall (U : Unicode) (R : Rust) (T : Terminal) (prog w : str) (ss : list str),
  In w enumerate_words -> ss <> [] -> Forall unicode (prog :: ss) ->
  let one s := main [prog; w; s] in
  on_stdout (main (prog :: w :: ss)) = flat_map (fun s => on_stdout (one s)) ss /\
  on_stderr (main (prog :: w :: ss)) = flat_map (fun s => on_stderr (one s)) ss /\
  forall ss', Permutation ss ss' -> ended (main (prog :: w :: ss)) = ended (main (prog :: w :: ss')).
Proof.
  intros U R T prog w ss Hw Hne Hu one. inversion Hu as [|? ? Hp Hs]; subst.
  destruct (list_each U R T prog w Hw Hp ss Hne Hs) as (O & E & St). split; [exact O|]. split; [exact E|]. intros ss' P.
  assert (Hne' : ss' <> []) by (intros ->; apply Permutation_sym, Permutation_nil in P; congruence).
  assert (Hs' : Forall unicode ss') by (now rewrite <- P).
  destruct (list_each U R T prog w Hw Hp ss' Hne' Hs') as (_ & _ & St').
  destruct St as [[-> K]|[-> (s & Hin & K)]], St' as [[-> K']|[-> (s' & Hin' & K')]]; try reflexivity; exfalso.
  - apply (Permutation_in _ (Permutation_sym P)) in Hin'. specialize (K s' Hin'). congruence.
  - apply (Permutation_in _ P) in Hin. specialize (K' s Hin). congruence.
Qed.

(** ** Describing *)
Section Describe.
  Context (U : Unicode) (R : Rust) (T : Terminal) (prog : str) (Hp : unicode prog).
  Lemma show_one s : unicode s -> ~ In s command_words -> ended (main [prog; s]) = Ret 0%Z \/ ended (main [prog; s]) = Ret 1%Z.
  Proof.
    intros Hs Hc. rewrite main_run by (apply Forall_cons; [exact Hp|]; apply Forall_cons; [exact Hs|apply Forall_nil]). cbn [ended].
    assert (Hw : forall w, hd_error [s] = Some w -> ~ In w command_words) by (intros w [= <-]; exact Hc).
    destruct (first_nonsense R [s]) as [G|(pre & t & post & E & Hpre & N)].
    - destruct (c62_show R prog [s] ltac:(discriminate) Hw G) as (m & _ & D). rewrite (D T). now left.
    - rewrite E in *. destruct (c62_show_error R prog pre post t Hw Hpre N) as (e & _ & D). rewrite (D T). now right.
  Qed.
  Lemma show_each ss : ss <> [] -> Forall (fun s => unicode s /\ ~ In s command_words) ss ->
    (ended (main (prog :: ss)) = Ret 0%Z /\ (forall s, In s ss -> ended (main [prog; s]) = Ret 0%Z) /\
       on_stdout (main (prog :: ss)) = parted newline (map (fun s => on_stdout (main [prog; s])) ss)) \/
    (ended (main (prog :: ss)) = Ret 1%Z /\ exists s, In s ss /\ main (prog :: ss) = main [prog; s]).
  Proof.
    induction ss as [|s ss IH]; intros Hne Hu; [congruence|]. inversion Hu as [|? ? [Hs Hc] Hss]; subst. destruct ss as [|t ss].
    - destruct (show_one s Hs Hc) as [E|E]; rewrite E; [left|right]; (split; [reflexivity|]).
      + split; [intros u [<-|[]]; exact E|reflexivity].
      + exists s. split; [now left|reflexivity].
    - destruct (c86_show U R T prog [s] (t :: ss)) as [(E1 & E2 & E)|[(E1 & E)|(E1 & E2 & E)]].
      + inversion Hss as [|? ? [_ Ht] _]; subst. intros w [[= <-]|[= <-]]; assumption.
      + discriminate.
      + discriminate.
      + apply Forall_cons; [exact Hp|]. cbn [List.app]. eapply Forall_impl; [|exact Hu]. now intros u [Hu' _].
      + cbn [List.app] in E. rewrite E. cbn [ended on_stdout]. left. split; [reflexivity|].
        destruct (IH ltac:(discriminate) Hss) as [(_ & K & O)|(K & _)]; [|congruence]. split.
        * intros u [<-|Hin]; [exact E1|now apply K].
        * rewrite O. reflexivity.
      + cbn [List.app] in E. rewrite E. right. split; [exact E1|]. exists s. split; [now left|reflexivity].
      + cbn [List.app] in E. rewrite E. right. split; [exact E2|]. destruct (IH ltac:(discriminate) Hss) as [(K & _)|(_ & u & Hin & K)]; [congruence|].
        exists u. split; [now right|exact K].
  Qed.
End Describe.

Lemma c101_show : forall (U : Unicode) (R : Rust) (T : Terminal) (prog : str) (ss : list str),
  ss <> [] -> Forall (fun s => unicode s /\ ~ In s command_words) ss -> unicode prog ->
  (ended (main (prog :: ss)) = Ret 0%Z ->
     on_stdout (main (prog :: ss)) = parted newline (map (fun s => on_stdout (main [prog; s])) ss)) /\
  (ended (main (prog :: ss)) <> Ret 0%Z -> exists s, In s ss /\ main (prog :: ss) = main [prog; s]) /\
  forall ss', Permutation ss ss' -> ended (main (prog :: ss)) = ended (main (prog :: ss')).
Proof.
  intros U R T prog ss Hne Hs Hp. destruct (show_each U R T prog Hp ss Hne Hs) as [(E & K & O)|(E & s & Hin & K)].
  - split; [intros _; exact O|]. split; [congruence|]. intros ss' P.
    assert (Hne' : ss' <> []) by (intros ->; apply Permutation_sym, Permutation_nil in P; congruence).
    assert (Hs' : Forall (fun s => unicode s /\ ~ In s command_words) ss') by (now rewrite <- P).
    destruct (show_each U R T prog Hp ss' Hne' Hs') as [(E' & _)|(E' & s' & Hin' & K')]; [congruence|exfalso].
    apply (Permutation_in _ (Permutation_sym P)) in Hin'. specialize (K s' Hin'). rewrite <- K' in K. congruence.
  - split; [congruence|]. split; [intros _; now exists s|]. intros ss' P.
    assert (Hne' : ss' <> []) by (intros ->; apply Permutation_sym, Permutation_nil in P; congruence).
    assert (Hs' : Forall (fun s => unicode s /\ ~ In s command_words) ss') by (now rewrite <- P).
    destruct (show_each U R T prog Hp ss' Hne' Hs') as [(E' & K' & _)|(E' & _)]; [exfalso|congruence].
    apply (Permutation_in _ P) in Hin. specialize (K' s Hin). rewrite <- K in K'. congruence.
Qed.
