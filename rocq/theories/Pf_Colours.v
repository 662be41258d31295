(** * Pf_Colours: proofs for P_Colours *)
From Verif Require Import RustBase Console Main Messages Process Colours SpecText SpecIO SpecShow SpecMain SpecProcess SpecColours Demo.
From Verif Require Import Utf8Facts Pf_Main Pf_Process.

(** ** Variables *)
Lemma env_says s name v : env_var s (lit name) = Some v <-> set_to s name v.
Proof.
  unfold env_var, set_to. destruct (variable s (lit name)) as [w|]; [|split; [discriminate|intros [E _]; discriminate E]].
  destruct (is_utf8 w) eqn:E.
  - split; [intros [= <-]; split; [reflexivity|now apply utf8_unicode]|]. now intros [[= ->] _].
  - split; [discriminate|]. intros [[= ->] Hv]. apply utf8_unicode in Hv. congruence.
Qed.
Lemma env_silent s name : env_var s (lit name) = None <-> forall v, ~ set_to s name v.
Proof.
  split.
  - intros E v Hv. apply env_says in Hv. congruence.
  - intros H. destruct (env_var s (lit name)) as [v|] eqn:E; [|reflexivity]. destruct (H v). now apply env_says.
Qed.

Lemma c95_exact : forall (s : surroundings), @colors_enabled (terminal_in s) = true <-> coloured s.
Proof.
  intros s. cbn [terminal_in colors_enabled]. unfold default_colors_enabled, is_a_color_terminal, coloured, forced, colourable.
  rewrite orb_true_iff, andb_true_iff, !negb_true_iff. split.
  - intros [[H1 H2]|H].
    + right. destruct (tty s); [|discriminate]. cbn [negb] in H1.
      destruct (env_var s (lit "NO_COLOR")) as [v|] eqn:E1; [discriminate|]. cbn [is_some] in H1.
      destruct (env_var s (lit "TERM")) as [t|] eqn:E2; [|discriminate]. apply negb_true_iff in H1.
      split; [reflexivity|]. split; [|split].
      * exists t. split; [now apply env_says|]. intros E. apply str_eqb_eq in E. congruence.
      * now apply env_silent.
      * intros E. apply env_says in E. rewrite E in H2. discriminate H2.
    + left. destruct (env_var s (lit "CLICOLOR_FORCE")) as [v|] eqn:E; cbn [unwrap_or] in H; [|discriminate H].
      exists v. split; [now apply env_says|]. intros E'. apply str_eqb_eq in E'. congruence.
  - intros [(v & Hv & Hn)|(Ht & (t & Hs & Hd) & Hno & Hc)].
    + right. apply env_says in Hv. rewrite Hv. cbn [unwrap_or]. destruct (str_eqb v (lit "0")) eqn:E; [|reflexivity].
      now apply str_eqb_eq in E.
    + left. rewrite Ht. cbn [negb]. apply env_silent in Hno. rewrite Hno. cbn [is_some]. apply env_says in Hs. rewrite Hs. split.
      * apply negb_true_iff. destruct (str_eqb t (lit "dumb")) eqn:E; [|reflexivity]. now apply str_eqb_eq in E.
      * destruct (env_var s (lit "CLICOLOR")) as [v|] eqn:E; cbn [unwrap_or]; [|reflexivity].
        destruct (str_eqb v (lit "0")) eqn:E'; [|reflexivity]. apply str_eqb_eq in E'. subst v. destruct Hc. now apply env_says.
Qed.

Lemma coloured_dec s : {coloured s} + {~ coloured s}.
Proof.
  destruct (@colors_enabled (terminal_in s)) eqn:E; [left|right]; [now apply c95_exact|].
  intros H. apply c95_exact in H. congruence.
Qed.

Lemma c95_escapes : forall (U : Unicode) (R : Rust) (s : surroundings) (args : list str) (ms : list mark) (r : res Z),
  Forall unicode args -> (forall T : Terminal, @do_main R T args = (map (paint (@colors_enabled T)) ms, r)) ->
  (In "027"%char (on_stdout (main_in s args)) <-> coloured s /\ exists c t, In (Frag c t) ms).
Proof.
  intros U R s args ms r Ha E. unfold main_in. split.
  - intros H. destruct (coloured_dec s) as [Hc|Hc].
    + split; [exact Hc|]. rewrite main_run in H by exact Ha. cbn [on_stdout] in H. pose proof (neat_do_main R (terminal_in s) args Ha) as Hn.
      unfold neat in Hn. rewrite (E (terminal_in s)) in *. cbn [fst] in *. apply c95_exact in Hc. rewrite Hc in *. clear - H Hn.
      induction ms as [|m ms IH]; [destruct H|]. cbn [map flat_map] in *. apply in_app_iff in H.
      destruct m as [c t|t|e].
      * exists c, t. now left.
      * destruct H as [H|H].
        -- cbn [paint to_stdout] in H. apply Forall_inv in Hn. cbn [paint neat_event] in Hn. rewrite Forall_forall in Hn.
           specialize (Hn _ H). cbv beta in Hn. exfalso. destruct Hn as [Hn|Hn]; [|discriminate Hn]. unfold printable_ascii in Hn. cbn in Hn. lia.
        -- destruct (IH H (Forall_inv_tail Hn)) as (c & t' & Hi). exists c, t'. now right.
      * destruct H as [H|H]; [destruct H|]. destruct (IH H (Forall_inv_tail Hn)) as (c & t' & Hi). exists c, t'. now right.
    + exfalso. destruct (c70_ascii U R (terminal_in s) args) as (l & _ & Hl & Hp).
      destruct Hp as [Hp _]. { destruct (@colors_enabled (terminal_in s)) eqn:F; [|reflexivity]. destruct Hc. now apply c95_exact. }
      rewrite Hp in H. apply in_map_iff in H. destruct H as (x & Hx & Hi). rewrite Forall_forall in Hl. specialize (Hl _ Hi).
      rewrite Hx in Hl. destruct Hl as [Hl|Hl]; [|discriminate Hl]. unfold printable_ascii in Hl. cbn in Hl. lia.
  - intros (Hc & c & t & Hi). rewrite main_run by exact Ha. cbn [on_stdout]. rewrite (E (terminal_in s)). cbn [fst].
    apply c95_exact in Hc. rewrite Hc. apply in_flat_map. exists (EvStyled c t). split.
    + apply in_map_iff. now exists (Frag c t).
    + cbn [to_stdout]. unfold styled_text. destruct (style c). now left.
Qed.

Lemma c95_piped : forall (U : Unicode) (R : Rust) (s : surroundings) (args : list str),
  tty s = false -> ~ forced s ->
  Forall (fun c => printable_ascii c \/ c = "010"%char) (on_stdout (main_in s args)).
Proof.
  intros U R s args Ht Hf. unfold main_in. destruct (c70_ascii U R (terminal_in s) args) as (l & _ & Hl & Hp).
  destruct Hp as [Hp _].
  { destruct (@colors_enabled (terminal_in s)) eqn:F; [|reflexivity]. apply c95_exact in F. destruct F as [F|(F & _)]; [now destruct Hf|congruence]. }
  rewrite Hp. apply Forall_map. exact Hl.
Qed.

Lemma c95_same : forall (U : Unicode) (R : Rust) (s s' : surroundings) (args : list str),
  on_stderr (main_in s args) = on_stderr (main_in s' args) /\ ended (main_in s args) = ended (main_in s' args) /\
  (coloured s /\ coloured s' \/ ~ coloured s /\ ~ coloured s' -> main_in s args = main_in s' args) /\
  forall prog w rest, args = prog :: w :: rest -> In w (minimize_words ++ derange_words ++ enumerate_words) ->
    main_in s args = main_in s' args.
Proof.
  intros U R s s' args. unfold main_in.
  assert (coloured s /\ coloured s' \/ ~ coloured s /\ ~ coloured s' -> terminal_in s = terminal_in s') as HT.
  { intros H. unfold terminal_in. f_equal. pose proof (c95_exact s) as Es. pose proof (c95_exact s') as Es'. cbn [terminal_in colors_enabled] in *.
    destruct (default_colors_enabled s), (default_colors_enabled s'); [reflexivity| | |reflexivity]; exfalso; destruct H as [[H1 H2]|[H1 H2]].
    - apply Es' in H2. discriminate H2.
    - now apply H1, Es.
    - apply Es in H1. discriminate H1.
    - now apply H2, Es'. }
  assert (on_stderr (@main U R (terminal_in s) args) = on_stderr (@main U R (terminal_in s') args) /\
          ended (@main U R (terminal_in s) args) = ended (@main U R (terminal_in s') args)) as [H1 H2].
  { destruct (unicode_args_dec args) as [Ha|Ha]; [|rewrite !main_panic by exact Ha; now split].
    destruct (c60_same_marks R args) as (ms & r & E). rewrite !main_run by exact Ha. cbn [on_stderr ended]. rewrite !E. cbn [fst snd].
    split; [|reflexivity]. clear. induction ms as [|m ms IH]; [reflexivity|]. cbn [map flat_map]. rewrite IH. f_equal.
    destruct m; cbn [paint]; [|reflexivity|reflexivity]. now do 2 destruct colors_enabled. }
  split; [exact H1|]. split; [exact H2|]. split.
  - intros H. now rewrite (HT H).
  - intros prog w rest -> Hw. unfold main, run_of.
    replace (@do_main R (terminal_in s) (prog :: w :: rest)) with (@do_main R (terminal_in s') (prog :: w :: rest)); [reflexivity|].
    repeat (destruct Hw as [<-|Hw]; [reflexivity|]). destruct Hw.
Qed.

Lemma c95_alike : forall (U : Unicode) (R : Rust) (s s' : surroundings) (args : list str),
  alike s s' -> main_in s args = main_in s' args.
Proof.
  intros U R s s' args [Ht H]. apply c95_same.
  assert (forall a b, alike a b -> coloured a -> coloured b) as K.
  { clear. intros a b [Ht H] [(v & Hv & Hn)|(Hy & (v & Hv & Hn) & Hno & Hc)].
    - left. exists v. split; [|exact Hn]. apply (H "CLICOLOR_FORCE"%string v); [cbn; tauto|exact Hv].
    - right. split; [now rewrite <- Ht|]. split; [|split].
      + exists v. split; [|exact Hn]. apply (H "TERM"%string v); [cbn; tauto|exact Hv].
      + intros u Hu. apply (Hno u). apply (H "NO_COLOR"%string u); [cbn; tauto|exact Hu].
      + intros Hu. apply Hc. apply (H "CLICOLOR"%string (lit "0")); [cbn; tauto|exact Hu]. }
  assert (alike s' s) as H'. { split; [now symmetry|]. intros name v Hi. symmetry. now apply H. }
  destruct (coloured_dec s) as [Hc|Hc]; [left|right]; split; try exact Hc; [now apply (K s s')|].
  intros Hc'. apply Hc. now apply (K s' s).
Qed.
