(** * Pf_Pipes: proofs for P_Pipes *)
From Verif Require Import RustBase Addr BitManip Net Parse Console ShowNet Main Messages Process Spec SpecText SpecIO SpecShow SpecMain SpecProcess Demo
  Laws NetFacts Family TextFacts Utf8Facts Pf_Addr Pf_Net Pf_Netspec Pf_Minimize Pf_Derange Pf_Enum Pf_Main Pf_Compose Pf_Runs Pf_Process.
From Coq Require Import ZifyBool ZifyNat ZifyN.
Ltac Zify.zify_post_hook ::= idtac.

Lemma c74_same_process : forall (U : Unicode) (R R' : Rust) (T : Terminal) (args : list str) (z : Z),
  @usize_bits R = @usize_bits R' ->
  ended (@main U R T args) = Ret z ->
  (forall prog w s ss cs, args = prog :: w :: s :: ss -> In w split_words -> counts_text ss cs -> NoDup cs) ->
  @main U R' T args = @main U R T args.
Proof.
  intros U R R' T args z Hw E H. destruct (unicode_args_dec args) as [Ha|Ha].
  - rewrite !main_run in * by exact Ha. cbn [ended] in E. now rewrite (c67_same_run R R' T args z Hw E H).
  - now rewrite !main_panic by exact Ha.
Qed.

Lemma c74_same_stdout : forall (U : Unicode) (R R' : Rust) (T : Terminal) (args : list str) (z : Z),
  ended (@main U R T args) = Ret z ->
  (forall prog w s ss cs, args = prog :: w :: s :: ss -> In w split_words -> counts_text ss cs -> NoDup cs) ->
  on_stdout (@main U R' T args) = on_stdout (@main U R T args) /\ ended (@main U R' T args) = Ret z.
Proof.
  intros U R R' T args z E H. destruct (unicode_args_dec args) as [Ha|Ha].
  - rewrite !main_run in * by exact Ha. cbn [ended on_stdout] in E |- *. split; [|now apply (c67_same_status R R' T)].
    pose proof (c67_same_output R R' T args z E H) as O. clear -O. induction O as [|e e' es es' He O IH]; [reflexivity|].
    cbn [flat_map]. rewrite IH. f_equal. destruct He as [->|(m & m' & -> & ->)]; reflexivity.
  - rewrite !main_panic in * by exact Ha. split; [reflexivity|exact E].
Qed.

(** ** Readable arguments are ASCII *)
Lemma digit_code r c d : digit_below r c = Some d -> code c < 0x80.
Proof.
  unfold digit_below. destruct (digit c) eqn:E; [|discriminate]. intros _. revert E.
  destruct c as [[] [] [] [] [] [] [] []]; cbn [digit]; try discriminate; intros _; reflexivity.
Qed.
Lemma numeral_ascii r s : forall acc n, numeral_from r acc s = Some n -> ascii_text s.
Proof.
  induction s as [|c s IH]; intros acc n; cbn [numeral_from]; [constructor|]. destruct (digit_below r c) eqn:E; [|discriminate].
  intros H. constructor; [eapply digit_code; exact E|]. eapply IH. exact H.
Qed.
Lemma written_ascii r s n : written r s n -> ascii_text s.
Proof.
  assert (A : forall s n, numeral r s = Some n -> ascii_text s).
  { intros [|c t] m; [discriminate|]. cbn [numeral]. apply numeral_ascii. }
  intros [H|(s' & -> & H)]; [now apply A in H|]. constructor; [reflexivity|]. now apply A in H.
Qed.
Lemma in_ascii l s : forallb (fun c => code c <? 0x80) l = true -> Forall (fun c => In c l) s -> ascii_text s.
Proof. intros H. rewrite forallb_forall in H. apply Forall_impl. intros c Hc. apply N.ltb_lt. now apply H. Qed.
Lemma dotted_ascii s : dotted s -> ascii_text s.
Proof.
  intros (t0 & t1 & t2 & t3 & [_ H0] & [_ H1] & [_ H2] & [_ H3] & ->).
  apply (in_ascii (lit "0123456789") _ eq_refl) in H0, H1, H2, H3.
  repeat (apply Forall_app; split; [assumption|]; constructor; [reflexivity|]). assumption.
Qed.
Lemma shape_ascii F s : addr_shape F s -> ascii_text s.
Proof. destruct F; [apply dotted_ascii|]. intros [_ H]. exact (in_ascii (lit "0123456789abcdef:") _ eq_refl H). Qed.
Lemma mask_ascii F s : mask_shape F s -> ascii_text s.
Proof. destruct F; [apply dotted_ascii|]. intros [H _]. exact (in_ascii (lit "0123456789abcdef:") _ eq_refl H). Qed.
Lemma means_unicode F s a n : means F s a n -> unicode s.
Proof.
  intros (A & w & M & mask & -> & Hs & _ & D & _). apply ascii_unicode. apply shape_ascii in Hs.
  apply Forall_app. split; [exact Hs|]. constructor; [reflexivity|]. apply Forall_app. split; [destruct w; repeat constructor|].
  destruct D as [(m & Hm & _)|(p & Hp & _)]; [now apply mask_ascii in Hm|]. destruct M; [discriminate|]. now apply numeral_ascii in Hp.
Qed.
Lemma separated_ascii c ts : code c < 0x80 -> Forall ascii_text ts -> ascii_text (separated c ts).
Proof.
  intros Hc H. induction H as [|t ts Ht H IH]; [constructor|]. cbn [separated]. destruct ts; [exact Ht|]. apply Forall_app. split; [exact Ht|]. now constructor.
Qed.
Lemma groups_ascii gs ts : Forall2 group_text gs ts -> Forall ascii_text ts.
Proof. intros H. induction H as [|g t gs ts [Hg _] H IH]; constructor; [|exact IH]. now apply written_ascii in Hg. Qed.
Lemma padded_ascii s : ascii_text (padded s) -> ascii_text s.
Proof.
  assert (A : forall t, ascii_text (match rev t with ":"%char :: _ => t ++ lit "0" | _ => t end) -> ascii_text t).
  { intros t. destruct (rev t) as [|c u]; [trivial|]. destruct c as [[] [] [] [] [] [] [] []]; trivial. intros H. now apply Forall_app in H. }
  unfold padded. intros H. apply A in H. destruct s as [|c s]; [constructor|].
  destruct c as [[] [] [] [] [] [] [] []]; trivial. now inversion H.
Qed.
Lemma address_unicode F s a : address_text F s a -> unicode s.
Proof.
  intros [_ H]. apply ascii_unicode. destruct F.
  - destruct H as (_ & t0 & t1 & t2 & t3 & x0 & x1 & x2 & x3 & -> & H0 & H1 & H2 & H3 & _). apply written_ascii in H0, H1, H2, H3.
    repeat (apply Forall_app; split; [assumption|]; constructor; [reflexivity|]). assumption.
  - destruct H as (gs & _ & [(ts & _ & G & E)|[(l & r & _ & _ & _ & ls & rs & Gl & Gr & E & _)|[-> _]]]); [| |constructor]; apply padded_ascii; rewrite E.
    + apply groups_ascii in G. now apply separated_ascii.
    + apply groups_ascii in Gl, Gr. apply Forall_app. split; [now apply separated_ascii|]. apply Forall_app. split; [repeat constructor|]. now apply separated_ascii.
Qed.
Lemma word_unicode l w : forallb is_utf8 l = true -> In w l -> unicode w.
Proof. intros H I. apply utf8_unicode. rewrite forallb_forall in H. now apply H. Qed.

(** ** Lines *)
Lemma pieces_line l s : ~ In "010"%char l -> pieces "010" (l ++ newline ++ s) = l :: pieces "010" s.
Proof.
  induction l as [|c l IH]; intros H; cbn [app newline pieces].
  - destruct (pieces "010" s) as [|t ts] eqn:E; [|reflexivity]. exfalso. revert E. clear. destruct s as [|c s]; [discriminate|]. cbn [pieces].
    destruct (pieces _ s) eqn:E; [intros _|destruct (Ascii.eqb _ _); discriminate].
    revert E. revert c. induction s as [|d s IH]; intros c E; [discriminate|]. cbn [pieces] in E. destruct (pieces _ s); [now apply IH|]. destruct (Ascii.eqb _ _); discriminate.
  - change (pieces "010" (l ++ "010"%char :: s)) with (pieces "010" (l ++ newline ++ s)). rewrite IH by (intros I; apply H; now right). destruct (Ascii.eqb_spec c "010"); [|reflexivity].
    destruct H. now left.
Qed.
Lemma read_lines ts : Forall (fun l => ~ In "010"%char l) ts -> text_lines (lines ts) = ts.
Proof.
  intros H. unfold text_lines. enough (E : pieces "010" (lines ts) = ts ++ [[]]) by (rewrite E; apply removelast_last).
  induction H as [|l ts Hl H IH]; [reflexivity|]. cbn [lines flat_map]. rewrite <- app_assoc, pieces_line by exact Hl. cbn [app]. f_equal. exact IH.
Qed.
Lemma prints_line s : prints s -> ~ In "010"%char s.
Proof. intros H I. unfold prints in H. rewrite Forall_forall in H. destruct (H _ I) as [L _]. now apply L. Qed.
Lemma prints_unicode s : prints s -> unicode s.
Proof. intros H. apply ascii_unicode. eapply Forall_impl; [|exact H]. intros c [_ L]. unfold code. lia. Qed.

(** ** From marks to processes *)
Definition silent (ts : list str) : process := {| on_stdout := lines ts; on_stderr := []; ended := Ret 0%Z |}.
Lemma does_main (U : Unicode) (R : Rust) (T : Terminal) args ts : does args (map says ts) 0%Z -> Forall unicode args -> main args = silent ts.
Proof.
  intros D Ha. rewrite main_run by exact Ha. rewrite (D T). cbn [fst snd]. unfold silent. f_equal.
  - clear. induction ts as [|t ts IH]; [reflexivity|]. cbn [map flat_map lines]. rewrite IH. reflexivity.
  - clear. induction ts as [|t ts IH]; [reflexivity|]. cbn [map flat_map]. rewrite IH. reflexivity.
Qed.
Lemma says_kept T (ts : list str) (l : list event) : Forall2 (fun e e' => e' = e \/ exists m m', e = EvErr m /\ e' = EvErr m') (map (paint T) (map says ts)) l -> l = map (paint T) (map says ts).
Proof.
  revert l. induction ts as [|t ts IH]; intros l H; [now inversion H|]. cbn [map] in H |- *.
  inversion H as [|e e' es es' E Hs]; subst. f_equal; [|now apply IH]. destruct E as [E|(m & m' & E & _)]; [exact E|discriminate E].
Qed.
Lemma does_env (R R' : Rust) prog w rest ts z : ~ In w split_words -> @does R (prog :: w :: rest) (map says ts) z -> @does R' (prog :: w :: rest) (map says ts) z.
Proof.
  intros Hw D T. assert (E : snd (@do_main R T (prog :: w :: rest)) = Ret z) by now rewrite (D T).
  assert (Ht : forall prog' w' s ss cs, prog :: w :: rest = prog' :: w' :: s :: ss -> In w' split_words -> counts_text ss cs -> NoDup cs)
    by (intros prog' w' s ss cs E' I; inversion E'; subst; contradiction).
  pose proof (c67_same_output R R' T _ z E Ht) as O. pose proof (c67_same_status R R' T _ z E) as S. rewrite (D T) in O. cbn [fst] in O.
  apply says_kept in O. destruct (@do_main R' T (prog :: w :: rest)) as [es r]. cbn [fst snd] in *. now subst.
Qed.
Lemma not_split_m w : In w minimize_words -> ~ In w split_words.
Proof. intros [<-|[<-|[]]] [E|[E|[]]]; discriminate E. Qed.
Lemma not_split_d w : In w derange_words -> ~ In w split_words.
Proof. intros [<-|[<-|[]]] [E|[E|[]]]; discriminate E. Qed.
Lemma not_split_e w : In w enumerate_words -> ~ In w split_words.
Proof. intros [<-|[<-|[]]] [E|[E|[]]]; discriminate E. Qed.

Lemma c74_minimize : forall (U U' : Unicode) (R R' : Rust) (T T' : Terminal) (F : family) (prog w w' : str) (ss : list str),
  unicode prog -> In w minimize_words -> In w' minimize_words -> ss <> [] ->
  Forall (fun s => exists a n p, means F s a n /\ is_cidr n p) ss ->
  let first := @main U R T (prog :: w :: ss) in
  let out := text_lines (on_stdout first) in
  ended first = Ret 0%Z /\ on_stderr first = [] /\ on_stdout first = lines out /\
  (F = V4 \/ Forall (of_family F) out -> @main U' R' T' (prog :: w' :: out) = first).
Proof.
  intros U U' R R' T T' F prog w w' ss Hp Hw Hw' Hne Hs.
  destruct (choose_means F (fun n => exists p, is_cidr n p) ss) as (l & M & Hc).
  { eapply Forall_impl; [|exact Hs]. intros s (a & n & p & M & Hn). exists a, n. split; [exact M|now exists p]. }
  destruct (c62_minimize R F prog w ss l Hw Hne M) as (r & E & D). destruct (c62_minimize R F prog w' ss l Hw' Hne M) as (r' & E' & D').
  rewrite E in E'. injection E' as <-. rewrite <- lines_says in D, D'.
  assert (Hss : Forall unicode ss).
  { eapply Forall_impl; [|exact Hs]. intros s (a & n & p & Ms & _). now apply means_unicode in Ms. }
  assert (Hout : Forall prints (map (@net_display (addr F) (@addr_ops R F)) r)) by (apply Forall_map, Forall_forall; intros n _; apply (prints_net R)).
  intros first. assert (Ef : first = silent (map (@net_display (addr F) (@addr_ops R F)) r)).
  { unfold first. apply does_main; [exact D|]. constructor; [exact Hp|]. constructor; [|exact Hss]. now apply (word_unicode minimize_words). }
  clearbody first. subst first. cbv zeta. cbn [silent ended on_stderr on_stdout]. rewrite read_lines by (eapply Forall_impl; [exact prints_line|exact Hout]).
  split; [reflexivity|]. split; [reflexivity|]. split; [reflexivity|]. intros Ho.
  assert (Hr : Forall (of_family F) (map (@net_display (addr F) (@addr_ops R F)) r)).
  { destruct Ho as [->|Ho]; [|exact Ho]. eapply (c68_readable_v4 R prog w ss); [|exact D]. left. split; [exact Hw|].
    eapply Forall_impl; [|exact Hs]. intros s (a & n & p & Ms & _). now exists a, n. }
  apply (does_main U' R' T').
  - apply (does_env R R'); [now apply not_split_m|]. now apply (c68_minimize_again R F prog w' ss).
  - constructor; [exact Hp|]. constructor; [now apply (word_unicode minimize_words)|]. eapply Forall_impl; [exact prints_unicode|exact Hout].
Qed.

Lemma c74_derange : forall (U U' : Unicode) (R R' : Rust) (T T' : Terminal) (F : family) (prog w w' s t : str) (a b : addr F) (out' : list str),
  unicode prog -> In w derange_words -> In w' minimize_words -> address_text F s a -> address_text F t b ->
  N.max (value a) (value b) <> top F ->
  let first := @main U R T [prog; w; s; t] in
  let out := text_lines (on_stdout first) in
  ended first = Ret 0%Z /\ on_stderr first = [] /\ on_stdout first = lines out /\
  (F = V4 \/ Forall (of_family F) out -> (forall x, In x out <-> In x out') ->
   @main U' R' T' (prog :: w' :: out') = first).
Proof.
  intros U U' R R' T T' F prog w w' s t a b out' Hp Hw Hw' Ha Hb Ht.
  destruct (c62_derange R F prog w s t a b Hw Ha Hb Ht) as (r & E & D). rewrite <- lines_says in D.
  assert (Hout : Forall prints (map (@net_display (addr F) (@addr_ops R F)) r)) by (apply Forall_map, Forall_forall; intros n _; apply (prints_net R)).
  intros first. assert (Ef : first = silent (map (@net_display (addr F) (@addr_ops R F)) r)).
  { unfold first. apply does_main; [exact D|]. constructor; [exact Hp|]. constructor; [now apply (word_unicode derange_words)|].
    constructor; [now apply address_unicode in Ha|]. constructor; [now apply address_unicode in Hb|constructor]. }
  clearbody first. subst first. cbv zeta. cbn [silent ended on_stderr on_stdout]. rewrite read_lines by (eapply Forall_impl; [exact prints_line|exact Hout]).
  split; [reflexivity|]. split; [reflexivity|]. split; [reflexivity|]. intros Ho Hin.
  assert (Hr : Forall (of_family F) (map (@net_display (addr F) (@addr_ops R F)) r)).
  { destruct Ho as [->|Ho]; [|exact Ho]. eapply (c68_readable_v4 R prog w [s; t]); [|exact D]. right. split; [exact Hw|].
    constructor; [now exists a|]. constructor; [now exists b|constructor]. }
  apply (does_main U' R' T').
  - apply (does_env R R'); [now apply not_split_m|]. now apply (c68_derange_minimize R F prog w w' s t a b).
  - constructor; [exact Hp|]. constructor; [now apply (word_unicode minimize_words)|]. apply Forall_forall. intros x Hx. apply Hin in Hx.
    rewrite Forall_forall in Hout. now apply prints_unicode, Hout.
Qed.

Lemma c74_enumerate : forall (U U' : Unicode) (R R' : Rust) (T T' : Terminal) (F : family) (prog w w' s : str) (a : addr F) (n : net F) (p : N),
  unicode prog -> In w enumerate_words -> In w' minimize_words -> means F s a n -> is_cidr n p ->
  let first := @main U R T [prog; w; s] in
  let hosts := map (fun t => t ++ match F with V4 => lit "/32" | V6 => lit "/128" end) (text_lines (on_stdout first)) in
  ended first = Ret 0%Z /\ on_stderr first = [] /\ N.of_nat (List.length hosts) = 2 ^ (width F - p) /\
  (F = V4 \/ Forall (of_family F) hosts ->
   @main U' R' T' (prog :: w' :: hosts) = {| on_stdout := lines [net_display n]; on_stderr := []; ended := Ret 0%Z |}).
Proof.
  intros U U' R R' T T' F prog w w' s a n p Hp Hw Hw' M Hn.
  assert (Hl : exists l : list (addr F), (forall x, In x l <-> valid x /\ member n x) /\
    StronglySorted (fun x y : addr F => value x < value y) l /\ @does R [prog; w; s] (map says (map (@display (addr F) (@addr_ops R F)) l)) 0%Z).
  { destruct (c62_enumerate R prog w [s] Hw) as (mss & z & H & Hz & D); [discriminate|].
    inversion H as [|? ms ? mss' Hs H0]; subst. inversion H0; subst. cbn [List.concat] in D. rewrite app_nil_r in D.
    assert (z = 0%Z) as ->.
    { destruct Hz as [[-> _]|[_ (t & [<-|[]] & Ns)]]; [reflexivity|]. now apply Ns in M. }
    destruct Hs as [(G & b & m & l & M' & Hi & Hl & ->)|(Ns & _)]; [|now apply Ns in M].
    clear H. revert l Hi Hl D. apply (means_once R F G s a n b m (fun G b m => forall l : list (addr G), (forall x, In x l <-> valid x /\ member m x) ->
      StronglySorted (fun x y : addr G => value x < value y) l -> @does R [prog; w; s] (map (fun x => says (@display (addr G) (@addr_ops R G) x)) l) 0%Z ->
      exists l : list (addr F), (forall x, In x l <-> valid x /\ member n x) /\
        StronglySorted (fun x y : addr F => value x < value y) l /\ @does R [prog; w; s] (map says (map (@display (addr F) (@addr_ops R F)) l)) 0%Z) M M').
    intros l Hi Hl D. exists l. split; [exact Hi|]. split; [exact Hl|]. now rewrite map_map. }
  destruct Hl as (l & Hi & Hl & D).
  assert (Hout : Forall prints (map (@display (addr F) (@addr_ops R F)) l)) by (apply Forall_map, Forall_forall; intros x _; apply (prints_addr R)).
  intros first. assert (Ef : first = silent (map (@display (addr F) (@addr_ops R F)) l)).
  { unfold first. apply does_main; [exact D|]. constructor; [exact Hp|]. constructor; [now apply (word_unicode enumerate_words)|].
    constructor; [|constructor]. now apply means_unicode in M. }
  clearbody first. subst first. cbv zeta. cbn [silent ended on_stderr on_stdout]. rewrite read_lines by (eapply Forall_impl; [exact prints_line|exact Hout]).
  split; [reflexivity|]. split; [reflexivity|]. split.
  - rewrite !map_length. destruct (size_cidr n p Hn) as [_ <-]. destruct (count_size n (proj1 Hn)) as (l' & N' & H' & <-). f_equal.
    apply Permutation_length, NoDup_Permutation; [|exact N'|].
    + clear -Hl. induction Hl as [|x l Hl IH Hx]; constructor; [|exact IH]. intros I. rewrite Forall_forall in Hx. specialize (Hx _ I). lia.
    + intros x. now rewrite Hi, H'.
  - intros Ho. destruct (c68_enumerate_minimize R F prog w w' s a n p _ Hw Hw' M Hn D) as [H4 H5].
    rewrite (net_display_env R' R). apply (does_main U' R' T' _ [@net_display (addr F) (@addr_ops R F) n]).
    + apply (does_env R R'); [now apply not_split_m|]. apply H5. destruct Ho as [->|Ho]; [now apply H4|exact Ho].
    + constructor; [exact Hp|]. constructor; [now apply (word_unicode minimize_words)|]. apply Forall_map. eapply Forall_impl; [|exact Hout].
      intros t Ht. apply ascii_unicode. apply Forall_app. split; [|destruct F; repeat constructor]. eapply Forall_impl; [|exact Ht]. intros c [_ L]. unfold code. lia.
Qed.
