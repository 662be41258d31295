(** * Pf_Screen: proofs for P_Screen *)
From Verif Require Import RustBase Addr Net Parse Derange Split Console ShowNet Main Messages Process Sink SpecText SpecIO SpecShow SpecMain SpecProcess SpecMessages SpecScreen.
From Verif Require Import Utf8Facts Pf_Show Pf_Main Pf_Process Pf_Messages Pf_Crash Pf_Sink Pf_Files Pf_Whole Pf_Fate Demo.
From Verif Require Import Sink.
From Coq Require Import ZifyBool ZifyNat ZifyN.
Ltac Zify.zify_post_hook ::= idtac.

(** ** The bytes of marks *)
Definition text_of `{Unicode} : list event -> str := flat_map (fun e => to_stdout e ++ to_stderr e).
Lemma text_of_app `{Unicode} es es' : text_of (es ++ es') = text_of es ++ text_of es'.
Proof. apply flat_map_app. Qed.

Lemma tidy_no_escape l : tidy l -> ~ In escape l.
Proof.
  intros (ns & Hn & ->) I. apply in_flat_map in I. destruct I as (n & Hin & Hc). rewrite Forall_forall in Hn. destruct (Hn _ Hin) as [Hs Ht].
  destruct (utf8_bytes _ _ Hs Hc) as [[L E]|L]; [|now apply L].
  rewrite utf8_one in E by exact L. inversion E as [E']. apply (f_equal N_of_ascii) in E'. rewrite N_ascii_embedding in E' by lia. subst n. destruct Ht. left. reflexivity.
Qed.
Lemma lines_no_escape ls : Forall tidy ls -> ~ In escape (lines ls).
Proof.
  induction 1 as [|l ls H Hs IH]; [intros []|]. cbn [lines flat_map]. rewrite !in_app_iff. intros [[I|[I|[]]]|I]; [|discriminate I|now apply IH].
  now apply (tidy_no_escape l H).
Qed.
Lemma message_told (U : Unicode) m : neat_event (EvErr m) -> exists ls, told [m] ls /\ message_text m = lines ls /\ Forall tidy ls /\ ls <> [].
Proof.
  intros [He Hm]. pose proof (message_tidy U m He) as Ht. destruct (match m with MsgUsage => true | _ => false end) eqn:Em.
  - destruct m; try discriminate. exists usage_text. split; [rewrite <- (app_nil_r usage_text); repeat constructor|]. split; [reflexivity|]. split; [exact Ht|discriminate].
  - destruct (message_worded m He Hm) as (l & El & Hw); [now intros ->|]. exists [l]. rewrite El in Ht. split; [now repeat constructor|].
    split; [unfold message_text; now rewrite El|]. split; [exact Ht|discriminate].
Qed.
Lemma turn_text (U : Unicode) c ms : Forall neat_event (map (paint c) ms) -> in_turn c ms (text_of (map (paint c) ms)).
Proof.
  unfold in_turn. destruct c.
  - induction ms as [|m ms IH]; intros H; inversion H as [|? ? Hm Hms]; subst; [exists []; split; [constructor|reflexivity]|].
    destruct (IH Hms) as (g & Hg & Hs). unfold seen in *. destruct m as [c s|s|e]; cbn [map paint text_of flat_map to_stdout to_stderr app neat_event] in *; rewrite ?app_nil_r.
    + eexists. split; [constructor; exact Hg|]. rewrite terminal_styled by now apply out_no_escape. unfold text_of in *. now rewrite Hs.
    + eexists. split; [constructor; exact Hg|]. rewrite terminal_text by now apply out_no_escape. unfold text_of in *. now rewrite Hs.
    + destruct (message_told U e Hm) as (ls & Ht & -> & Hl & _). eexists. split; [eapply visible_problem; [exact Ht|exact Hg]|].
      rewrite terminal_text by now apply lines_no_escape. unfold text_of in *. now rewrite Hs.
  - induction ms as [|m ms IH]; intros H; inversion H as [|? ? Hm Hms]; subst; [constructor|].
    specialize (IH Hms). destruct m as [c s|s|e]; cbn [map paint text_of flat_map to_stdout to_stderr app neat_event] in *; rewrite ?app_nil_r.
    + unfold line. cbn [to_stdout]. rewrite <- app_assoc. now constructor.
    + now constructor.
    + destruct (message_told U e Hm) as (ls & Ht & -> & Hl & _). now constructor.
Qed.

(** ** Messages come after whole lines *)
Definition whole (m : mark) : Prop := (exists t, m = says t) \/ is_problem m.
Lemma quiet_no_problem ms : quiet ms -> forall pre e post, ms <> pre ++ Problem e :: post.
Proof. intros H pre e post ->. apply Forall_app in H. destruct H as [_ H]. inversion H as [|? ? K _]. now apply K. Qed.
Lemma quiet_page {F : family} text num (n : net F) a wild hosts bc k class : quiet (page text num n a wild hosts bc k class).
Proof.
  assert (Hh : forall l t, quiet (heading (F := F) l t)) by (intros; repeat (apply quiet_cons; [easy|]); apply quiet_nil).
  assert (Hp : forall l t (x : addr F) c, quiet (plain_row l t x c)) by (intros; apply quiet_app; [apply Hh|]; apply quiet_app; [apply quiet_column|]; now apply quiet_cons; [|apply quiet_nil]).
  assert (Hb : forall l t (x m : addr F) c, quiet (bit_row l t x m c)) by (intros; apply quiet_app; [apply Hh|]; apply quiet_app; [apply quiet_column|]; now apply quiet_cons; [|apply quiet_nil]).
  assert (Hf : forall c t, quiet [Frag c t]) by (intros; now apply quiet_cons; [|apply quiet_nil]).
  assert (Hg : forall c t, quiet [Frag c t; break]) by (intros; apply quiet_cons; [easy|]; now apply quiet_cons; [|apply quiet_nil]).
  assert (Hk : quiet [break]) by (now apply quiet_cons; [|apply quiet_nil]).
  unfold page. destruct a, hosts as [[x y]|], bc, (2 <? k), class; repeat first [apply Hb | apply Hp | apply Hh | apply Hg | apply Hf | exact Hk | apply quiet_nil | apply quiet_app].
Qed.
Lemma quiet_depicted {F : family} (n : net F) a ms : depicted n a ms -> quiet ms.
Proof. intros (text & num & wild & hosts & bc & k & class & _ & _ & _ & _ & _ & _ & _ & _ & ->). apply quiet_page. Qed.
Lemma quiet_pages {F : family} (l : list (net F)) mss : Forall2 (fun e ms => depicted e None ms) l mss -> Forall quiet mss.
Proof. induction 1; constructor; [eapply quiet_depicted; eassumption|assumption]. Qed.
Lemma quiet_tail {X} (f : X -> str) (l : list X) mss first h : quiet first -> Forall quiet mss ->
  quiet (says h :: first ++ break :: flat_map (fun tm => says (f (fst tm)) :: snd tm ++ [break]) (combine l mss)).
Proof. intros H H'. apply quiet_cons; [easy|]. apply quiet_app; [exact H|]. apply quiet_cons; [easy|]. now apply quiet_blocks. Qed.
Lemma quiet_split_page first cs mss ms : quiet first -> Forall quiet mss -> split_page first cs mss ms -> quiet ms.
Proof. intros H H' (ts & _ & ->). now apply (quiet_tail (fun t => lit "Subnet for " ++ t ++ lit " hosts:")). Qed.
Lemma quiet_resize_page first o mss ms : quiet first -> Forall quiet mss -> resize_page first o mss ms -> quiet ms.
Proof.
  intros H H' (ts & _ & ->). now apply (quiet_tail (fun t => match o with
                | Lt => lit "Supernet:"
                | Eq => lit "Same-sized net:"
                | Gt => lit "Subnet " ++ t ++ lit ":"
                end)).
Qed.
Lemma quiet_map_says ts : quiet (map says ts).
Proof. apply (quiet_says (fun t => t)). Qed.

Lemma duty_shapes bits args ms z : duty bits args ms z -> quiet ms \/ (exists e, ms = [Problem e]) \/ Forall whole ms.
Proof.
  intros H. destruct H as [| | |prog rest|prog ss mss Hn H| |prog w ss mss z Hw Hne H Hz| | | | | | | |F prog w s t a n m r o first mss ms Hw M Hm Hr D Ds P| | | | |F prog w s ss a n cs r h us first mss ms ts Hw M Hc Hp Hi Hh y Hy Hu D Ds P Hts|F prog w s ss a n cs r first mss ms Hw M Hc Hp Hy Hi D Ds P|F prog w s ss a n cs first ms Hw M Hc Hy D P| | |];
    try (right; left; eexists; reflexivity); try (left; apply quiet_map_says).
  - left. apply (quiet_flat (fun p => [Frag (snd p) (fill 20 (fst p))]) palette). intros x _. apply quiet_cons; [easy|apply quiet_nil].
  - left. apply quiet_spaced. clear Hn. induction H as [|s ms ss mss (F & a & n & _ & D) H IH]; constructor; [eapply quiet_depicted, D|exact IH].
  - right. right. clear Hne Hz. induction H as [|s ms ss mss Hs H IH]; cbn [List.concat]; [constructor|]. apply Forall_app. split; [|exact IH].
    destruct Hs as [(F & a & n & l & _ & _ & Hl)|(e & _ & ->)]; [|repeat constructor; now right].
    clear H IH. induction Hl as [|x m l ms (t & _ & ->) Hl IH]; constructor; [left; now exists t|exact IH].
  - left. eapply quiet_resize_page; [eapply quiet_depicted, D|eapply quiet_pages, Ds|exact P].
  - left. apply quiet_app; [eapply quiet_split_page; [eapply quiet_depicted, D|eapply quiet_pages, Ds|exact P]|]. apply quiet_cons; [easy|apply quiet_map_says].
  - left. apply quiet_app; [eapply quiet_split_page; [eapply quiet_depicted, D|eapply quiet_pages, Ds|exact P]|]. apply quiet_cons; [easy|apply quiet_nil].
  - left. apply quiet_app; [eapply quiet_split_page; [eapply quiet_depicted, D|constructor|exact P]|]. apply quiet_cons; [easy|apply quiet_nil].
Qed.
Lemma orderly bits checked args ms f : fate bits checked args ms f -> forall pre e post, ms = pre ++ Problem e :: post -> Forall whole pre.
Proof.
  intros H pre e post E. destruct H as [args ms z H| | |F prog w s ss a n cs r h first mss ms Hw M Hc Hp Hi Hh Et D Ds P]; try now destruct pre.
  - destruct (duty_shapes bits args ms z H) as [Q|[(e' & ->)|W]].
    + now apply quiet_no_problem in E.
    + destruct pre as [|m [|m' pre]]; [constructor|discriminate E..].
    + rewrite E in W. apply Forall_app in W. apply W.
  - exfalso. revert E. apply quiet_no_problem. apply quiet_app; [eapply quiet_split_page; [eapply quiet_depicted, D|eapply quiet_pages, Ds|exact P]|].
    apply quiet_cons; [easy|apply quiet_nil].
Qed.

(** A text of whole lines. *)
Definition full_lines (t : str) : Prop := t = [] \/ exists u, t = u ++ newline.
Lemma full_app t u : full_lines t -> full_lines u -> full_lines (t ++ u).
Proof. intros H [->|(v & ->)]; [now rewrite app_nil_r|]. right. exists (t ++ v). now rewrite app_assoc. Qed.
Lemma full_says t : full_lines (t ++ newline).
Proof. right. now exists t. Qed.
Lemma full_lines_of ls : full_lines (lines ls).
Proof. induction ls as [|l ls IH]; [now left|]. cbn [lines flat_map]. apply full_app; [apply full_says|exact IH]. Qed.
Lemma full_whole (U : Unicode) c ms : Forall whole ms -> Forall neat_event (map (paint c) ms) -> full_lines (text_of (map (paint c) ms)).
Proof.
  induction 1 as [|m ms Hm H IH]; intros N; [now left|]. inversion N as [|? ? N1 N2]; subst. cbn [map text_of flat_map]. apply full_app; [|now apply IH].
  destruct Hm as [(t & ->)|Hm].
  - destruct c; cbn [paint says to_stdout to_stderr]; rewrite app_nil_r; apply full_says.
  - destruct m as [| |e]; try easy. replace (paint c (Problem e)) with (EvErr e) in * by now destruct c. cbn [to_stdout to_stderr app].
    destruct (message_told U e N1) as (ls & _ & -> & _). apply full_lines_of.
Qed.
Lemma full_no_tail t a b : full_lines t -> t = a ++ b -> ~ In nl b -> b = [].
Proof.
  intros [->|(u & ->)] E H; [symmetry in E; now apply app_eq_nil in E|]. destruct b as [|c0 b0]; [reflexivity|].
  destruct (exists_last (l := c0 :: b0)) as (b' & c & Eb); [discriminate|]. rewrite Eb in *. rewrite app_assoc in E. apply app_inj_tail in E. destruct E as [_ <-].
  destruct H. apply in_or_app. right. now left.
Qed.

(** ** The screen *)
Section Screen.
Context {U : Unicode} {S : Stdio} (k : Sink.kind).
Lemma blank_stores : stores (took k) (blank k) [].
Proof. split; [exists []; cbn; split; [split; [reflexivity|unfold received; now destruct (writable k)]|reflexivity]|intros []]. Qed.
Lemma screen_event_inv w e all : stores (took k) w all -> (match e with EvErr _ => full_lines all | _ => True end) ->
  match screen_event w e with
  | (w', true) => stores (took k) w' (all ++ to_stdout e ++ to_stderr e)
  | (w', false) => broke k w' (all ++ to_stdout e ++ to_stderr e)
  end.
Proof.
  intros Ha Hf.
  assert (A : forall s, match write_pieces line_write_all w (chop s) with (w', true) => stores (took k) w' (all ++ s) | (w', false) => broke k w' (all ++ s) end).
  { intros s. pose proof (pieces_inv line_write_all (stores (took k)) (broke k) (line_stores (took k) (took k) (broke k) (broken k) (took_put k) (took_put' k) (broke_more k) (broken_more k)) (broke_more k) (chop s) _ _ Ha) as K.
    now rewrite chop_law in K. }
  destruct e as [s|c s|m]; cbn [screen_event to_stdout to_stderr app]; rewrite ?app_nil_r; [apply A..|].
  destruct Ha as [(a & Hk & E) Hn]. assert (W : waiting w = []) by (now apply (full_no_tail all a)). rewrite W, app_nil_r in E. subst a.
  assert (B : forall f all s, took k f all -> match put_all f s with (f', true) => took k f' (all ++ s) | (f', false) => broken k f' (all ++ s) end).
  { intros f a s H. unfold put_all. pose proof (took_put' k f a s H) as G. destruct (put f s) as [[f' n] []]; exact G. }
  pose proof (pieces_inv put_all (took k) (broken k) B (broken_more k) (chop (message_text m)) _ _ Hk) as K. rewrite chop_law in K.
  destruct (write_pieces put_all (behind w) (chop (message_text m))) as [f []]; rewrite W.
  - split; [|intros []]. eexists. split; [exact K|]. cbn. now rewrite app_nil_r.
  - destruct K as (K1 & K2 & K3). split; [exact K1|]. split; [exact K2|exact K3].
Qed.
Lemma screen_events_inv es : forall w all, stores (took k) w all ->
  (forall pre m post, es = pre ++ EvErr m :: post -> full_lines (all ++ text_of pre)) ->
  match screen_events w es with
  | (w', true) => stores (took k) w' (all ++ text_of es)
  | (w', false) => broke k w' (all ++ text_of es)
  end.
Proof.
  induction es as [|e es IH]; intros w all H Hf; cbn [screen_events]; [cbn; now rewrite app_nil_r|].
  assert (He : match e with EvErr _ => full_lines all | _ => True end).
  { destruct e; try exact I. specialize (Hf [] m es eq_refl). cbn in Hf. now rewrite app_nil_r in Hf. }
  pose proof (screen_event_inv w e all H He) as K. destruct (screen_event w e) as [w' []]; cbn [text_of flat_map]; rewrite (app_assoc all).
  - apply IH; [exact K|]. intros pre m post ->. specialize (Hf (e :: pre) m post eq_refl). cbn [text_of flat_map] in Hf. now rewrite app_assoc in Hf.
  - now apply broke_more.
Qed.
End Screen.

(** What happens to the marks of a run, or to the first of them. *)
Lemma screen_marks (U : Unicode) (R : Rust) (T : Terminal) (S : Stdio) k args ms ms' r : Forall unicode args -> runs args (ms ++ ms') r ->
  let es := map (paint colors_enabled) ms in
  in_turn colors_enabled ms (text_of es) /\
  match screen_events (blank k) es with (w, true) => stores (took k) w (text_of es) | (w, false) => broke k w (text_of es) end.
Proof.
  intros Ha D es. pose proof (neat_do_main R T args Ha) as N. unfold neat in N. rewrite (D T), map_app in N. cbn [fst] in N. apply Forall_app in N. destruct N as [N _].
  split; [now apply turn_text|]. apply (screen_events_inv k es (blank k) [] (blank_stores k)). intros pre m post E. cbn [app].
  apply c91_sound in D. subst es. apply map_eq_app in E. destruct E as (m1 & m2 & -> & <- & E). destruct m2 as [|x m2]; [discriminate E|]. cbn [map] in E.
  injection E as E _. assert (x = Problem m) as -> by (destruct x, colors_enabled; unfold paint, line in E; congruence).
  rewrite map_app in N. apply Forall_app in N. destruct N as [N _]. apply full_whole; [|exact N].
  rewrite <- app_assoc in D. eapply orderly; [exact D|reflexivity].
Qed.

Lemma obliging_fails k i : obliging k -> ~ fails_at k i.
Proof. intros H [W [X|X]]; destruct (H W i) as [n E]; congruence. Qed.
Lemma put_begins f s : exists n, taken (fst (put_all f s)) = taken f ++ firstn n s.
Proof.
  unfold put_all, put. destruct (writable (of_kind f)); [|exists 0%nat; cbn; now rewrite app_nil_r].
  pose proof (requests_taken _ f s (le_n _)) as H. destruct (requests _ _ _) as [[f' n] b]. exists n. apply H.
Qed.
Lemma flush_begins w : exists n, taken (behind (fst (flush_buf w))) = taken (behind w) ++ firstn n (waiting w).
Proof.
  pose proof (put_begins (behind w) (waiting w)) as [n H]. exists n. rewrite <- H. unfold flush_buf, put_all. now destruct (put (behind w) (waiting w)) as [[f m] b].
Qed.
Lemma put_took k f a s : obliging k -> took k f a -> took k (fst (put_all f s)) (a ++ s).
Proof.
  intros O H. pose proof (took_put' k f a s H) as G. unfold put_all. destruct (put f s) as [[f' n] []]; [exact G|]. destruct G as (_ & _ & i & X). now apply obliging_fails in X.
Qed.
Lemma flush_all k w a : obliging k -> holds (took k) w a -> took k (behind (fst (flush_buf w))) a.
Proof.
  intros O (t & H & ->). pose proof (put_took k (behind w) t (waiting w) O H) as G. unfold flush_buf, put_all in *. now destruct (put (behind w) (waiting w)) as [[f m] b].
Qed.

(** The marks of a run that crashes. *)
Lemma crash_full (U : Unicode) c bits checked args ms : fate bits checked args ms Crash -> full_lines (text_of (map (paint c) ms)).
Proof.
  intros H. inversion H; subst; [now left|]. rewrite map_app, text_of_app. cbn [map paint says text_of flat_map to_stdout to_stderr]. rewrite !app_nil_r.
  right. eexists. rewrite app_assoc. reflexivity.
Qed.
Lemma forever_none bits checked args ms : fate bits checked args ms Forever -> ms = [].
Proof. intros H. now inversion H. Qed.

Lemma c94_no_text : forall (U : Unicode) (R : Rust) (T : Terminal) (S : Stdio) (k : kind) (blame : str) (args : list str),
  ~ Forall unicode args -> writable k = true -> obliging k ->
  main_screen k blame args = {| on_screen := blame; closed := Panic |}.
Proof.
  intros U R T S k blame args Ha W O. unfold main_screen. destruct (forallb is_utf8 args) eqn:E; [destruct Ha; now apply utf8_args|]. f_equal.
  assert (H : took k (fresh k) []) by (split; [reflexivity|unfold received; now destruct (writable k)]).
  pose proof (put_took k (fresh k) [] blame O H) as [_ G]. rewrite G. unfold received. now rewrite W.
Qed.

Lemma c94_in_turn : forall (U : Unicode) (R : Rust) (T : Terminal) (S : Stdio) (k : kind) (blame : str) (args : list str),
  Forall unicode args -> writable k = true -> obliging k ->
  exists ms t, fate usize_bits overflow_checks args ms (as_seen (closed (main_screen k blame args))) /\
    in_turn colors_enabled ms t /\
    on_screen (main_screen k blame args) = t ++ match closed (main_screen k blame args) with Panic => blame | _ => [] end.
Proof.
  intros U R T S k blame args Ha W O. destruct (fate_all R args) as (ms & r & D & H). pose proof D as D'. rewrite <- (app_nil_r ms) in D'.
  destruct (screen_marks U R T S k args ms [] r Ha D') as [Ht K]. apply utf8_args in Ha. unfold main_screen. rewrite Ha, (D T).
  destruct (screen_events (blank k) (map (paint colors_enabled) ms)) as [w []].
  2:{ destruct K as (_ & _ & i & X). now apply obliging_fails in X. }
  cbn [closed on_screen]. exists ms, (text_of (map (paint colors_enabled) ms)). split; [exact H|]. split; [exact Ht|]. destruct K as [K Kn]. destruct r as [z| |].
  - pose proof (flush_all k w _ O K) as [_ G]. rewrite G. unfold received. now rewrite W, app_nil_r.
  - destruct K as (t & G & E). pose proof (full_no_tail _ t (waiting w) (crash_full U _ _ _ _ _ H) E Kn) as Ew. rewrite Ew, app_nil_r in *. subst t.
    pose proof (put_took k _ _ blame O G) as G'.
    destruct (flush_all k (with_file w [] (fst (put_all (behind w) blame))) (text_of (map (paint colors_enabled) ms) ++ blame) O) as [_ X].
    { eexists. split; [exact G'|]. cbn. now rewrite app_nil_r. }
    rewrite X. unfold received. now rewrite W.
  - apply forever_none in H. subst ms. destruct K as (t & [_ G] & E). cbn in E. symmetry in E. apply app_eq_nil in E. destruct E as [-> _].
    rewrite G. unfold received. now rewrite W.
Qed.

Lemma c94_prompt : forall (U : Unicode) (R : Rust) (T : Terminal) (S : Stdio) (k : kind) (args : list str) (ms ms' : list mark) (r : res Z),
  Forall unicode args -> runs args (ms ++ ms') r -> writable k = true -> obliging k ->
  exists rest, in_turn colors_enabled ms (so_far k (map (paint colors_enabled) ms) ++ rest) /\ ~ In "010"%char rest /\
    (forall ms0 e, ms = ms0 ++ [Problem e] -> rest = []).
Proof.
  intros U R T S k args ms ms' r Ha D W O. destruct (screen_marks U R T S k args ms ms' r Ha D) as [Ht K]. unfold so_far.
  pose proof (neat_do_main R T args Ha) as N. unfold neat in N. rewrite (D T), map_app in N. cbn [fst] in N. apply Forall_app in N. destruct N as [N _].
  destruct (screen_events (blank k) (map (paint colors_enabled) ms)) as [w []].
  2:{ destruct K as (_ & _ & i & X). now apply obliging_fails in X. }
  destruct K as [(t & [_ G] & E) Kn]. cbn [fst]. exists (waiting w). unfold received in G. rewrite W in G. rewrite G, <- E. split; [exact Ht|]. split; [exact Kn|].
  intros ms0 e ->. apply (full_no_tail _ t (waiting w)) in E; [exact E| |exact Kn]. apply full_whole; [|exact N].
  apply Forall_app. split; [|repeat constructor; now right]. apply c91_sound in D. rewrite <- app_assoc in D. eapply orderly; [exact D|reflexivity].
Qed.

Lemma c94_beginning : forall (U : Unicode) (R : Rust) (T : Terminal) (S : Stdio) (k : kind) (blame : str) (args : list str),
  Forall unicode args ->
  exists ms r t before rest after said unsaid,
    runs args ms r /\ in_turn colors_enabled ms t /\ t = before ++ rest ++ after /\ blame = said ++ unsaid /\
    on_screen (main_screen k blame args) = before ++ said ++ rest /\
    (closed (main_screen k blame args) = r \/ closed (main_screen k blame args) = Panic /\ exists i, fails_at k i) /\
    (said <> [] -> closed (main_screen k blame args) = Panic).
Proof.
  intros U R T S k blame args Ha. destruct (fate_all R args) as (ms & r & D & H). pose proof D as D'. rewrite <- (app_nil_r ms) in D'.
  destruct (screen_marks U R T S k args ms [] r Ha D') as [Ht K]. apply utf8_args in Ha. unfold main_screen. rewrite Ha, (D T).
  exists ms, r, (text_of (map (paint colors_enabled) ms)).
  destruct (screen_events (blank k) (map (paint colors_enabled) ms)) as [w ok]. cbn [closed on_screen].
  assert (B : writable k = false /\ of_kind (behind w) = k /\ taken (behind w) = [] \/ exists v, text_of (map (paint colors_enabled) ms) = taken (behind w) ++ waiting w ++ v).
  { destruct ok.
    - destruct K as [(t & [Kk G] & E) _]. unfold received in G. destruct (writable k) eqn:W.
      + right. exists []. now rewrite app_nil_r, G.
      + left. auto.
    - destruct K as (_ & K & _). now right. }
  assert (X : (if ok then r else Panic) = r \/ (if ok then r else Panic) = Panic /\ exists i, fails_at k i).
  { destruct ok; [now left|]. right. split; [reflexivity|]. apply K. }
  set (r' := if ok then r else Panic) in *. clearbody r'.
  destruct B as [(W & Kk & B)|(v & B)].
  { assert (P : forall f s, of_kind f = k -> put_all f s = (f, true)) by (intros f s E; unfold put_all, put; now rewrite E, W).
    assert (Q : forall w, of_kind (behind w) = k -> behind (fst (flush_buf w)) = behind w).
    { intros w' E. unfold flush_buf, put. rewrite E, W. reflexivity. }
    exists [], [], (text_of (map (paint colors_enabled) ms)), [], blame. split; [exact D|]. split; [exact Ht|]. split; [reflexivity|]. split; [reflexivity|].
    split; [|split; [exact X|congruence]]. cbn [app]. destruct r' as [z| |].
    - rewrite Q by exact Kk. exact B.
    - rewrite (P _ _ Kk). cbn [fst]. rewrite Q by exact Kk. exact B.
    - exact B. }
  destruct r' as [z| |].
  - destruct (flush_begins w) as [n E]. rewrite E. exists (taken (behind w)), (firstn n (waiting w)), (skipn n (waiting w) ++ v), [], blame.
    split; [exact D|]. split; [exact Ht|]. split; [rewrite B; f_equal; now rewrite app_assoc, firstn_skipn|]. split; [reflexivity|]. split; [reflexivity|]. split; [exact X|congruence].
  - destruct (put_begins (behind w) blame) as [m E]. destruct (flush_begins (with_file w (waiting w) (fst (put_all (behind w) blame)))) as [n E']. cbn [with_file behind waiting] in E'.
    rewrite E', E, <- app_assoc. exists (taken (behind w)), (firstn n (waiting w)), (skipn n (waiting w) ++ v), (firstn m blame), (skipn m blame).
    split; [exact D|]. split; [exact Ht|]. split; [rewrite B; f_equal; now rewrite app_assoc, firstn_skipn|]. split; [now rewrite firstn_skipn|]. split; [reflexivity|]. split; [exact X|reflexivity].
  - exists (taken (behind w)), [], (waiting w ++ v), [], blame.
    split; [exact D|]. split; [exact Ht|]. split; [exact B|]. split; [reflexivity|]. split; [now rewrite app_nil_r|]. split; [exact X|congruence].
Qed.

Lemma c94_status : forall (U : Unicode) (R : Rust) (T : Terminal) (S : Stdio) (k : kind) (blame : str) (args : list str) (z : Z),
  closed (main_screen k blame args) = Ret z -> writable k = true ->
  exists ms t lost, duty usize_bits args ms z /\ in_turn colors_enabled ms t /\
    t = on_screen (main_screen k blame args) ++ lost /\ ~ In "010"%char lost.
Proof.
  intros U R T S k blame args z. destruct (unicode_args_dec args) as [Ha|Ha].
  2:{ unfold main_screen. destruct (forallb is_utf8 args) eqn:E; [destruct Ha; now apply utf8_args|]. discriminate. }
  destruct (fate_all R args) as (ms & r & D & H). pose proof D as D'. rewrite <- (app_nil_r ms) in D'.
  destruct (screen_marks U R T S k args ms [] r Ha D') as [Ht K]. apply utf8_args in Ha. unfold main_screen. rewrite Ha, (D T).
  destruct (screen_events (blank k) (map (paint colors_enabled) ms)) as [w []]; cbn [closed on_screen]; [|discriminate].
  intros -> W. destruct K as [(t & [_ G] & E) Kn]. unfold received in G. rewrite W in G. destruct (flush_begins w) as [n E'].
  exists ms, (text_of (map (paint colors_enabled) ms)), (skipn n (waiting w)). split; [now inversion H|]. split; [exact Ht|]. rewrite E', G, <- app_assoc, firstn_skipn.
  split; [exact E|]. intros I. apply Kn. rewrite <- (firstn_skipn n). apply in_or_app. now right.
Qed.
