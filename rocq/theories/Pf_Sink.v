(** * Pf_Sink: proofs for P_Sink *)
From Verif Require Import RustBase Addr Net Parse Derange Split Console ShowNet Main Messages Process Sink Spec SpecText SpecIO SpecShow SpecMain SpecProcess Pf_Show Pf_Main Pf_Process Pf_Crash Demo.
From Coq Require Import ZifyBool ZifyNat ZifyN.
Ltac Zify.zify_post_hook ::= idtac.
Open Scope nat_scope.

Notation nl := ("010"%char).

(** ** Requests *)
Lemma requests_kind fuel : forall f s, of_kind (fst (fst (requests fuel f s))) = of_kind f.
Proof.
  induction fuel as [|fuel IH]; intros f [|c s]; cbn [requests]; try reflexivity.
  destruct (answers (of_kind f) (asked f)) as [[|n]|]; [reflexivity| |reflexivity].
  match goal with |- context [requests fuel ?g ?t] => specialize (IH g t); destruct (requests fuel g t) as [[f' m] ok] end. exact IH.
Qed.
Lemma put_kind f s : of_kind (fst (fst (put f s))) = of_kind f.
Proof. unfold put. destruct (writable (of_kind f)); [apply requests_kind|reflexivity]. Qed.
Lemma put_nothing f : put f [] = (f, 0, true).
Proof. unfold put. destruct (writable (of_kind f)); reflexivity. Qed.
(** What is taken is a beginning; all of it, if all goes well. *)
Lemma requests_taken fuel : forall f s, List.length s <= fuel ->
  match requests fuel f s with
  | (f', n, ok) => taken f' = taken f ++ firstn n s /\ n <= List.length s /\ (ok = true -> n = List.length s)
  end.
Proof.
  induction fuel as [|fuel IH]; intros f [|c s] L; cbn [requests List.length] in *; try lia.
  1-2: rewrite app_nil_r; auto.
  destruct (answers (of_kind f) (asked f)) as [[|n]|]; [cbn [taken firstn]; repeat split; [lia|discriminate]| |cbn [taken firstn]; repeat split; [lia|discriminate]].
  match goal with |- context [requests fuel ?g ?t] => specialize (IH g t); destruct (requests fuel g t) as [[f' m] ok] end.
  destruct IH as (E & Hm & Ho); [rewrite skipn_length; cbn [List.length]; lia|]. cbn [taken] in E.
  rewrite E. rewrite skipn_length in *. rewrite firstn_length. cbn [List.length] in *. repeat split.
  - rewrite <- app_assoc. f_equal. rewrite <- (firstn_skipn (S n) (c :: s)) at 3. rewrite firstn_app, firstn_length. cbn [List.length].
    rewrite (firstn_all2 (firstn (S n) (c :: s))) by (rewrite firstn_length; cbn [List.length]; lia). do 2 f_equal. lia.
  - lia.
  - intros H. specialize (Ho H). lia.
Qed.

(** ** The buffer, for any way to tell what files took *)
Section Tell.
(** [fits f all]: [f] was given [all] and took it; [refused w all]: [all] was given,
    and something went wrong; [fits'] and [full] likewise for a file without a buffer. *)
Variables (fits fits' : file -> str -> Prop) (refused : writer -> str -> Prop) (full : file -> str -> Prop).
Hypothesis put_fits : forall f a s, fits f a ->
  match put f s with
  | (f', n, true) => fits f' (a ++ s) /\ n = List.length s
  | (f', n, false) => refused {| waiting := []; behind := f' |} (a ++ s) /\
                      refused {| waiting := skipn n s; behind := f' |} (a ++ s)
  end.
Hypothesis put_fits' : forall f a s, fits' f a ->
  match put f s with
  | (f', n, true) => fits' f' (a ++ s)
  | (f', n, false) => full f' (a ++ s)
  end.
Hypothesis refused_more : forall w a s, refused w a -> refused w (a ++ s).
Hypothesis full_more : forall f a s, full f a -> full f (a ++ s).

Definition holds (w : writer) (all : str) : Prop := exists a, fits (behind w) a /\ all = a ++ waiting w.
Lemma flush_holds w all : holds w all ->
  match flush_buf w with
  | (w', true) => holds w' all /\ waiting w' = []
  | (w', false) => refused w' all
  end.
Proof using put_fits.
  intros (a & Ha & ->). unfold flush_buf. pose proof (put_fits _ _ (waiting w) Ha) as H. destruct (put (behind w) (waiting w)) as [[f n] []].
  - destruct H as [H ->]. rewrite skipn_all. split; [|reflexivity]. exists (a ++ waiting w). cbn. now rewrite app_nil_r.
  - exact (proj2 H).
Qed.

Context {U : Unicode} {S : Stdio}.
Lemma buf_holds w all s : holds w all ->
  match buf_write_all w s with
  | (w', true) => holds w' (all ++ s) /\ (forall c, In c (waiting w') -> In c (waiting w) \/ In c s)
  | (w', false) => refused w' (all ++ s)
  end.
Proof.
  intros H. unfold buf_write_all.
  assert (A : forall w, holds w all -> holds (with_file w (waiting w ++ s) (behind w)) (all ++ s)).
  { intros w0 (a & Ha & ->). exists a. cbn. split; [exact Ha|now rewrite app_assoc]. }
  destruct (Nat.ltb (List.length s) (capacity - List.length (waiting w))) eqn:E1.
  { split; [now apply A|]. intros c Hc. now apply in_app_or in Hc. }
  apply Nat.ltb_ge in E1.
  assert (B : match (if Nat.ltb (capacity - List.length (waiting w)) (List.length s) then flush_buf w else (w, true)) with
              | (w', true) => holds w' all /\ (waiting w' = [] \/ w' = w /\ List.length s <= capacity - List.length (waiting w))
              | (w', false) => refused w' all
              end).
  { destruct (Nat.ltb (capacity - List.length (waiting w)) (List.length s)) eqn:E2.
    - pose proof (flush_holds w all H) as K. destruct (flush_buf w) as [w' []]; [|exact K]. destruct K. auto.
    - apply Nat.ltb_ge in E2. auto. }
  destruct (if Nat.ltb (capacity - List.length (waiting w)) (List.length s) then flush_buf w else (w, true)) as [w' []]; cbn [negb];
    [|now apply refused_more].
  destruct B as [B1 B2]. destruct (Nat.leb capacity (List.length s)) eqn:E3.
  - apply Nat.leb_le in E3. assert (waiting w' = [] \/ s = []) as [W'| ->].
    { destruct B2 as [B2|[-> B2]]; [now left|]. destruct (waiting w) as [|c b]; [now left|]. right. cbn [List.length] in *.
      destruct s; cbn [List.length] in *; [reflexivity|lia]. }
    2:{ rewrite put_nothing, app_nil_r. destruct B1 as (a & Ha & ->). split; [exists a; cbn; now split|].
      cbn. intros c Hc. destruct B2 as [B2|[-> B2]]; [rewrite B2 in Hc; destruct Hc|now left]. }
    destruct B1 as (a & Ha & ->). pose proof (put_fits _ _ s Ha) as K. rewrite W', app_nil_r. destruct (put (behind w') s) as [[f n] []].
    + destruct K as [K _]. unfold with_file. split; [|intros c []]. exists (a ++ s). cbn. rewrite app_nil_r. now split.
    + exact (proj1 K).
  - split; [now apply A|]. cbn. intros c Hc. apply in_app_or in Hc. destruct Hc as [Hc|Hc]; [|now right].
    destruct B2 as [B2|[-> B2]]; [rewrite B2 in Hc; destruct Hc|now left].
Qed.

Lemma break_some s l t : last_line_break s = Some (l, t) -> s = l ++ t /\ ~ In nl t.
Proof.
  revert l t. induction s as [|c s IH]; intros l t E; cbn [last_line_break] in E; [discriminate|].
  destruct (last_line_break s) as [[l' t']|] eqn:E'.
  - injection E as <- <-. destruct (IH l' t' eq_refl) as [-> H]. auto.
  - destruct (Ascii.eqb_spec c nl) as [->|]; [|discriminate]. injection E as <- <-. split; [reflexivity|].
    clear IH. induction s as [|c s IH]; intros H; [destruct H|]. cbn [last_line_break] in E'.
    destruct (last_line_break s) as [[l' t']|]; [discriminate|]. destruct (Ascii.eqb_spec c nl) as [->|Hc]; [discriminate|].
    destruct H as [H|H]; [congruence|]. now apply IH.
Qed.
Lemma break_none s : last_line_break s = None -> ~ In nl s.
Proof.
  induction s as [|c s IH]; intros E H; [destruct H|]. cbn [last_line_break] in E.
  destruct (last_line_break s) as [[l' t']|]; [discriminate|]. destruct (Ascii.eqb_spec c nl) as [->|Hc]; [discriminate|].
  destruct H as [H|H]; [congruence|]. now apply IH.
Qed.

(** The buffer of stdout never holds a whole line. *)
Definition stores (w : writer) (all : str) : Prop := holds w all /\ ~ In nl (waiting w).
Lemma line_stores w all s : stores w all ->
  match line_write_all w s with
  | (w', true) => stores w' (all ++ s)
  | (w', false) => refused w' (all ++ s)
  end.
Proof.
  intros [H Hn]. unfold line_write_all. destruct (last_line_break s) as [[l t]|] eqn:E.
  - apply break_some in E. destruct E as [-> Ht]. rewrite app_assoc.
    assert (A : match (match waiting w with
        | [] => let '(f, _, ok) := put (behind w) l in (with_file w [] f, ok)
        | _ => let (w, ok) := buf_write_all w l in if negb ok then (w, false) else flush_buf w end) with
      | (w', true) => holds w' (all ++ l) /\ waiting w' = []
      | (w', false) => refused w' (all ++ l)
      end).
    { destruct (waiting w) as [|c b] eqn:Ew.
      - destruct H as (a & Ha & ->). rewrite Ew, app_nil_r. pose proof (put_fits _ _ l Ha) as K. destruct (put (behind w) l) as [[f n] []].
        + split; [|reflexivity]. exists (a ++ l). cbn. rewrite app_nil_r. now split.
        + exact (proj1 K).
      - pose proof (buf_holds w all l H) as K. destruct (buf_write_all w l) as [w' []]; cbn [negb]; [|exact K]. exact (flush_holds w' _ (proj1 K)). }
    destruct (match waiting w with [] => _ | _ => _ end) as [w' []]; cbn [negb]; [|now apply refused_more].
    destruct A as [A Aw]. pose proof (buf_holds w' _ t A) as K. destruct (buf_write_all w' t) as [w'' []]; [|exact K].
    destruct K as [K1 K2]. split; [exact K1|]. intros C. apply K2 in C. rewrite Aw in C. destruct C as [[]|C]. now apply Ht.
  - apply break_none in E.
    assert (A : match (match rev (waiting w) with c :: _ => if Ascii.eqb c nl then flush_buf w else (w, true) | [] => (w, true) end) with
      | (w', true) => stores w' all
      | (w', false) => refused w' all
      end).
    { destruct (rev (waiting w)); [now split|]. destruct (Ascii.eqb a nl); [|now split].
      pose proof (flush_holds w all H) as K. destruct (flush_buf w) as [w' []]; [|exact K]. destruct K as [K1 K2]. split; [exact K1|]. rewrite K2. intros []. }
    destruct (match rev (waiting w) with [] => _ | _ => _ end) as [w' []]; cbn [negb]; [|now apply refused_more].
    destruct A as [A1 A2]. pose proof (buf_holds w' _ s A1) as K. destruct (buf_write_all w' s) as [w'' []]; [|exact K].
    destruct K as [K1 K2]. split; [exact K1|]. intros C. apply K2 in C. tauto.
Qed.

Lemma pieces_inv {W} (write : W -> str -> W * bool) (P Q : W -> str -> Prop) :
  (forall w all s, P w all -> match write w s with (w', true) => P w' (all ++ s) | (w', false) => Q w' (all ++ s) end) ->
  (forall w all s, Q w all -> Q w (all ++ s)) ->
  forall ss w all, P w all ->
  match write_pieces write w ss with (w', true) => P w' (all ++ List.concat ss) | (w', false) => Q w' (all ++ List.concat ss) end.
Proof.
  intros HP HQ. induction ss as [|s ss IH]; intros w all H; cbn [write_pieces List.concat]; [now rewrite app_nil_r|].
  specialize (HP w all s H). destruct (write w s) as [w' []]; rewrite app_assoc; [now apply IH|now apply HQ].
Qed.
Lemma put_all_fits f all s : fits' f all -> match put_all f s with (f', true) => fits' f' (all ++ s) | (f', false) => full f' (all ++ s) end.
Proof. intros H. unfold put_all. pose proof (put_fits' f all s H) as K. destruct (put f s) as [[f' n] []]; exact K. Qed.

Definition outs := flat_map to_stdout.
Definition errs := flat_map to_stderr.
Lemma event_inv o e a b : stores (out o) a -> fits' (err o) b ->
  match write_event o e with
  | (o', true) => stores (out o') (a ++ to_stdout e) /\ fits' (err o') (b ++ to_stderr e)
  | (o', false) => refused (out o') (a ++ to_stdout e) /\ fits' (err o') b \/ stores (out o') a /\ full (err o') (b ++ to_stderr e)
  end.
Proof.
  intros Ha Hb.
  assert (A : forall s, match write_pieces line_write_all (out o) (chop s) with (w', true) => stores w' (a ++ s) | (w', false) => refused w' (a ++ s) end).
  { intros s. pose proof (pieces_inv line_write_all stores refused line_stores refused_more (chop s) _ _ Ha) as K. now rewrite chop_law in K. }
  assert (B : forall s, match write_pieces put_all (err o) (chop s) with (w', true) => fits' w' (b ++ s) | (w', false) => full w' (b ++ s) end).
  { intros s. pose proof (pieces_inv put_all fits' full put_all_fits full_more (chop s) _ _ Hb) as K. now rewrite chop_law in K. }
  destruct e as [s|c s|m]; cbn [write_event to_stdout to_stderr]; rewrite ?app_nil_r.
  - specialize (A s). destruct (write_pieces line_write_all (out o) (chop s)) as [w' []]; cbn [out err]; auto.
  - specialize (A (styled_text c s)). destruct (write_pieces line_write_all (out o) (chop (styled_text c s))) as [w' []]; cbn [out err]; auto.
  - specialize (B (message_text m)). destruct (write_pieces put_all (err o) (chop (message_text m))) as [w' []]; cbn [out err]; auto.
Qed.
Lemma events_inv es : forall o a b, stores (out o) a -> fits' (err o) b ->
  match write_events o es with
  | (o', true) => stores (out o') (a ++ outs es) /\ fits' (err o') (b ++ errs es)
  | (o', false) => refused (out o') (a ++ outs es) /\ (exists u v, errs es = u ++ v /\ fits' (err o') (b ++ u)) \/
                   full (err o') (b ++ errs es) /\ (exists u v, outs es = u ++ v /\ stores (out o') (a ++ u))
  end.
Proof.
  induction es as [|e es IH]; intros o a b Ha Hb; cbn [write_events]; [cbn; now rewrite !app_nil_r|].
  pose proof (event_inv o e a b Ha Hb) as K. destruct (write_event o e) as [o' []]; unfold outs, errs in *; cbn [flat_map]; rewrite !app_assoc.
  - destruct K as [K1 K2]. specialize (IH o' _ _ K1 K2). destruct (write_events o' es) as [o'' []]; [exact IH|].
    destruct IH as [[I1 (u & v & E & I2)]|[I1 (u & v & E & I2)]]; [left|right]; (split; [exact I1|]); rewrite E; rewrite <- app_assoc in I2; eexists _, v; (split; [|exact I2]); now rewrite app_assoc.
  - destruct K as [[K1 K2]|[K1 K2]]; [left|right]; (split; [first [now apply refused_more | now apply full_more]|]); exists []; eexists; (split; [reflexivity|]); now rewrite app_nil_r.
Qed.
End Tell.

(** ** What stays the same *)
Section Kinds.
Context {U : Unicode} {S : Stdio}.
Lemma flush_kind w : of_kind (behind (fst (flush_buf w))) = of_kind (behind w).
Proof. unfold flush_buf. pose proof (put_kind (behind w) (waiting w)) as H. destruct (put _ _) as [[g n] b]. exact H. Qed.
Lemma direct_kind w b s : of_kind (behind (fst (let '(f, _, ok) := put (behind w) s in (with_file w b f, ok)))) = of_kind (behind w).
Proof. pose proof (put_kind (behind w) s) as H. destruct (put _ _) as [[g n] ok]. exact H. Qed.
Lemma all_kind f s : of_kind (fst (put_all f s)) = of_kind f.
Proof. unfold put_all. pose proof (put_kind f s) as H. destruct (put f s) as [[g n] b]. exact H. Qed.
Lemma buf_kind w s : of_kind (behind (fst (buf_write_all w s))) = of_kind (behind w).
Proof.
  unfold buf_write_all. destruct (Nat.ltb _ _); [reflexivity|].
  assert (of_kind (behind (fst (if Nat.ltb (capacity - List.length (waiting w)) (List.length s) then flush_buf w else (w, true)))) = of_kind (behind w)) as K by (destruct (Nat.ltb _ _); [apply flush_kind|reflexivity]).
  destruct (if Nat.ltb _ _ then _ else _) as [w' []]; cbn [negb fst] in *; [|exact K]. destruct (Nat.leb _ _); [rewrite direct_kind|]; exact K.
Qed.
Lemma line_kind w s : of_kind (behind (fst (line_write_all w s))) = of_kind (behind w).
Proof.
  unfold line_write_all. destruct (last_line_break s) as [[l t]|].
  - assert (of_kind (behind (fst (match waiting w with
        | [] => let '(f, _, ok) := put (behind w) l in (with_file w [] f, ok)
        | _ => let (w, ok) := buf_write_all w l in if negb ok then (w, false) else flush_buf w end))) = of_kind (behind w)) as K.
    { destruct (waiting w); [apply direct_kind|]. pose proof (buf_kind w l) as B. destruct (buf_write_all w l) as [w' []]; cbn [negb]; [rewrite flush_kind|]; exact B. }
    destruct (match waiting w with [] => _ | _ => _ end) as [w' []]; cbn [negb fst] in *; [|exact K]. now rewrite buf_kind.
  - assert (of_kind (behind (fst (match rev (waiting w) with c :: _ => if Ascii.eqb c nl then flush_buf w else (w, true) | [] => (w, true) end))) = of_kind (behind w)) as K.
    { destruct (rev (waiting w)); [reflexivity|]. destruct (Ascii.eqb _ _); [apply flush_kind|reflexivity]. }
    destruct (match rev (waiting w) with [] => _ | _ => _ end) as [w' []]; cbn [negb fst] in *; [|exact K]. now rewrite buf_kind.
Qed.
Lemma pieces_kind {W X} (write : W -> str -> W * bool) (f : W -> X) : (forall w s, f (fst (write w s)) = f w) ->
  forall ss w, f (fst (write_pieces write w ss)) = f w.
Proof.
  intros H. induction ss as [|s ss IH]; intros w; [reflexivity|]. cbn [write_pieces]. specialize (H w s). destruct (write w s) as [w' []]; [|exact H].
  rewrite IH. exact H.
Qed.

Definition kinds (o : outputs) := (of_kind (behind (out o)), of_kind (err o)).
Lemma events_kinds es : forall o, kinds (fst (write_events o es)) = kinds o.
Proof.
  induction es as [|e es IH]; intros o; [reflexivity|]. cbn [write_events].
  assert (kinds (fst (write_event o e)) = kinds o) as K.
  { assert (A : forall s, of_kind (behind (fst (write_pieces line_write_all (out o) s))) = of_kind (behind (out o))) by (intros s; apply (pieces_kind line_write_all (fun w => of_kind (behind w))), line_kind).
    assert (B : forall s, of_kind (fst (write_pieces put_all (err o) s)) = of_kind (err o)) by (intros s; apply (pieces_kind put_all of_kind), all_kind).
    destruct e as [s|c s|m]; cbn [write_event]; [specialize (A (chop (to_stdout (EvOut s))))|specialize (A (chop (to_stdout (EvStyled c s))))|specialize (B (chop (to_stderr (EvErr m))))];
      [destruct (write_pieces line_write_all (out o) _) as [w' b]..|destruct (write_pieces put_all (err o) _) as [w' b]]; unfold kinds; cbn [fst out err] in *; congruence. }
  destruct (write_event o e) as [o' []]; [|exact K]. rewrite IH. exact K.
Qed.
End Kinds.

(** ** Files with room *)
Definition cut (room : option nat) (s : str) : str := match room with Some r => firstn r s | None => s end.
Definition roomy (room : option nat) (f : file) (all : str) : Prop :=
  of_kind f = with_room room /\ asked f = List.length all /\ taken f = all /\ enough room (List.length all) = true.
(** The file is full and refused some of [all]. *)
Definition no_room (room : option nat) (f : file) (all : str) : Prop :=
  exists r, room = Some r /\ of_kind f = with_room room /\ taken f = firstn r all /\ r < List.length all /\ r <= asked f.
Lemma requests_roomy room fuel : forall f a s, roomy room f a -> List.length s <= fuel ->
  match requests fuel f s with
  | (f', n, true) => roomy room f' (a ++ s)
  | (f', n, false) => no_room room f' (a ++ s)
  end.
Proof.
  induction fuel as [|fuel IH]; intros f a [|c s] H L; cbn [requests List.length] in *; try lia; rewrite ?app_nil_r; [exact H|exact H|].
  destruct H as (K & A & E & N). rewrite K, A. cbn [with_room answers]. destruct room as [r|] eqn:Er.
  - cbn [enough] in N. apply Nat.leb_le in N. destruct (Nat.ltb_spec (List.length a) r) as [G|G].
    + cbn [firstn skipn]. match goal with |- context [requests fuel ?g s] => specialize (IH g (a ++ [c]) s) end.
      rewrite <- app_assoc in IH. cbn [app] in IH.
      destruct (requests fuel _ s) as [[f' m] ok]. apply IH; [|lia]. unfold roomy. cbn [of_kind asked taken]. rewrite app_length, E. cbn [List.length enough].
      repeat split; [lia|apply Nat.leb_le; lia].
    + exists r. cbn [of_kind asked taken]. rewrite E. assert (r = List.length a) as -> by lia.
      rewrite firstn_app, Nat.sub_diag, firstn_all, firstn_O, app_nil_r, app_length. cbn [List.length]. repeat split; lia.
  - cbn [firstn skipn]. match goal with |- context [requests fuel ?g s] => specialize (IH g (a ++ [c]) s) end.
    rewrite <- app_assoc in IH. cbn [app] in IH.
    destruct (requests fuel _ s) as [[f' m] ok]. apply IH; [|lia]. unfold roomy. cbn [of_kind asked taken]. rewrite app_length, E. cbn [List.length enough].
    repeat split; lia.
Qed.
Lemma no_room_more room f all s : no_room room f all -> no_room room f (all ++ s).
Proof.
  intros (r & Hr & Hk & Ht & Hl & Ha). exists r. rewrite app_length. repeat split; [exact Hr|exact Hk| |lia|exact Ha].
  rewrite firstn_app. replace (r - List.length all) with 0 by lia. now rewrite firstn_O, app_nil_r.
Qed.
Lemma no_room_put room f all s : no_room room f all -> no_room room (fst (fst (put f s))) all.
Proof.
  intros (r & -> & Hk & Ht & Hl & Ha). unfold put. rewrite Hk. cbn [with_room writable]. exists r. destruct s as [|c s]; cbn [List.length requests].
  - cbn [fst]. repeat split; auto.
  - rewrite Hk. cbn [with_room answers]. destruct (Nat.ltb_spec (asked f) r); [lia|]. cbn [fst of_kind taken asked]. rewrite app_nil_r. repeat split; auto. 
Qed.
Lemma roomy_put room f a s : roomy room f a ->
  match put f s with
  | (f', n, true) => roomy room f' (a ++ s) /\ n = List.length s
  | (f', n, false) => no_room room f' (a ++ s) /\ no_room room f' (a ++ s)
  end.
Proof.
  intros H. unfold put. rewrite (proj1 H). cbn [with_room writable]. pose proof (requests_roomy room _ f a s H (le_n _)) as K.
  pose proof (requests_taken _ f s (le_n _)) as G. destruct (requests _ f s) as [[f' n] []]; [|auto]. split; [exact K|]. now apply G.
Qed.
Lemma roomy_put' room f a s : roomy room f a ->
  match put f s with (f', n, true) => roomy room f' (a ++ s) | (f', n, false) => no_room room f' (a ++ s) end.
Proof. intros H. pose proof (roomy_put room f a s H) as K. destruct (put f s) as [[f' n] []]; apply K. Qed.

(** ** Processes *)
Lemma cut_begins o s : exists v, s = cut o s ++ v.
Proof. destruct o as [r|]; cbn [cut]; [exists (skipn r s); now rewrite firstn_skipn|exists []; now rewrite app_nil_r]. Qed.
Lemma cut_enough o s : enough o (List.length s) = true -> cut o s = s.
Proof. destruct o as [r|]; cbn [cut enough]; intros H; [apply Nat.leb_le in H; now apply firstn_all2|reflexivity]. Qed.
Lemma flush_stores room w a : holds (roomy room) w a -> taken (behind (fst (flush_buf w))) = cut room a.
Proof.
  intros H. pose proof (flush_holds (roomy room) (fun w => no_room room (behind w)) (roomy_put room) w a H) as K.
  destruct (flush_buf w) as [w' []]; cbn [fst] in *.
  - destruct K as [(b & (_ & _ & Hb & Hb') & ->) Kw]. rewrite Kw, app_nil_r. rewrite cut_enough by exact Hb'. exact Hb.
  - destruct K as (r & -> & _ & Kt & _). exact Kt.
Qed.

Section Outcome.
Context (U : Unicode) (R : Rust) (T : Terminal) (S : Stdio) (o e : option nat) (args : list str).
Let q := main_on (with_room o) (with_room e) args.
Let p := main args.
Lemma outcome :
  (ended q = ended p /\ on_stderr q = on_stderr p /\ enough e (List.length (on_stderr p)) = true /\
    exists a b, on_stdout p = a ++ b /\ ~ In nl b /\ enough o (List.length a) = true /\
      on_stdout q = match ended p with Diverge => a | _ => cut o (on_stdout p) end) \/
  (ended q = Panic /\ (exists r, o = Some r /\ r < List.length (on_stdout p) /\ on_stdout q = firstn r (on_stdout p)) /\
    exists v, on_stderr p = on_stderr q ++ v) \/
  (ended q = Panic /\ (exists r, e = Some r /\ r < List.length (on_stderr p) /\ on_stderr q = firstn r (on_stderr p)) /\
    exists u v, on_stdout p = u ++ v /\ on_stdout q = cut o u).
Proof.
  unfold q, p. clear q p. unfold main_on, main, run_of. destruct (forallb is_utf8 args).
  2:{ left. cbn. repeat split; [now destruct e|]. exists [], []. repeat split; [intros []|now destruct o|]. destruct o; [cbn; now rewrite firstn_nil|reflexivity]. }
  destruct (do_main args) as [es r]. cbv zeta.
  set (start := {| out := _; err := _ |}).
  assert (Hs : stores (roomy o) (out start) []) by (split; [exists []; cbn; split; [repeat split; now destruct o|reflexivity]|intros []]).
  assert (He : roomy e (err start) []) by (repeat split; now destruct e).
  pose proof (events_inv (roomy o) (roomy e) (fun w => no_room o (behind w)) (no_room e) (roomy_put o) (roomy_put' e)
    (fun w a s => no_room_more o (behind w) a s) (no_room_more e) es start [] [] Hs He) as K.
  destruct (write_events start es) as [o' []]; cbn [app] in K; cbn [on_stdout on_stderr ended]; fold outs in *; fold (@errs U) in *.
  - left. destruct K as [[K1 K3] (_ & _ & K2 & K4)]. repeat split; [exact K2|exact K4|].
    pose proof (flush_stores _ _ _ K1) as Kf. destruct K1 as (a & (_ & _ & Ka & Ka') & E). exists a, (waiting (out o')). repeat split; [exact E|exact K3|exact Ka'|].
    destruct r; [exact Kf|exact Kf|exact Ka].
  - destruct K as [[K1 (u & v & E & K2)]|[K1 (u & v & E & K2)]].
    + right. left. split; [reflexivity|]. split.
      * apply (no_room_put o _ _ (waiting (out o'))) in K1. unfold flush_buf. destruct (put (behind (out o')) (waiting (out o'))) as [[f n] b].
        destruct K1 as (r' & Kr & _ & Kt & Kl & _). now exists r'.
      * exists v. rewrite E. now rewrite (proj1 (proj2 (proj2 K2))).
    + right. right. split; [reflexivity|]. split.
      * destruct K1 as (r' & Kr & _ & Kt & Kl & _). now exists r'.
      * exists u, v. split; [exact E|]. exact (flush_stores _ _ _ (proj1 K2)).
Qed.
End Outcome.

Lemma c85_beginning : forall (U : Unicode) (R : Rust) (T : Terminal) (S : Stdio) (o e : option nat) (args : list str),
  exists u v, on_stdout (main args) = on_stdout (main_on (with_room o) (with_room e) args) ++ u /\ on_stderr (main args) = on_stderr (main_on (with_room o) (with_room e) args) ++ v.
Proof.
  intros U R T S o e args. destruct (outcome U R T S o e args) as [(E1 & E2 & _ & a & b & E3 & _ & _ & E4)|[(_ & (r & _ & _ & ->) & v & E)|(_ & (r & _ & _ & ->) & u & v & E & ->)]].
  - rewrite E2, E4. destruct (ended (main args)); [destruct (cut_begins o (on_stdout (main args))) as [u Hu]..|]; [exists u, []..|exists b, []]; rewrite app_nil_r; auto.
  - exists (skipn r (on_stdout (main args))), v. now rewrite firstn_skipn.
  - destruct (cut_begins o u) as [u' Hu]. exists (u' ++ v), (skipn r (on_stderr (main args))). rewrite firstn_skipn. split; [|reflexivity]. now rewrite app_assoc, <- Hu.
Qed.

Lemma c85_stdout : forall (U : Unicode) (R : Rust) (T : Terminal) (S : Stdio) (k : nat) (e : option nat) (args : list str) (before after : str),
  on_stdout (main args) = before ++ newline ++ after -> (k <= List.length before)%nat ->
  enough e (List.length (on_stderr (main args))) = true ->
  on_stdout (main_on (with_room (Some k)) (with_room e) args) = firstn k (on_stdout (main args)) /\ ended (main_on (with_room (Some k)) (with_room e) args) = Panic.
Proof.
  intros U R T S k e args before after E Hk He. destruct (outcome U R T S (Some k) e args) as [(_ & _ & _ & a & b & E1 & Hb & Ha & _)|[(E1 & (r & [= <-] & _ & E2) & _)|(_ & (r & -> & Hr & _) & _)]].
  - exfalso. apply Hb. cbn [enough] in Ha. apply Nat.leb_le in Ha. clear - E E1 Hk Ha.
    assert (X : before ++ newline ++ after = a ++ b) by congruence. clear - X Hk Ha.
    assert (L : List.length a <= List.length before) by lia. clear k Hk Ha. revert before L X.
    induction a as [|c a IH]; intros before L X.
    + cbn [app] in X. subst b. apply in_or_app. right. now left.
    + destruct before as [|c' before]; [cbn in L; lia|]. cbn [app] in X. injection X as _ X. apply (IH before); [cbn in L; lia|exact X].
  - now split.
  - cbn [enough] in He. apply Nat.leb_le in He. lia.
Qed.

Lemma c85_stderr : forall (U : Unicode) (R : Rust) (T : Terminal) (S : Stdio) (o : option nat) (k : nat) (args : list str),
  (k < List.length (on_stderr (main args)))%nat -> enough o (List.length (on_stdout (main args))) = true ->
  on_stderr (main_on (with_room o) (with_room (Some k)) args) = firstn k (on_stderr (main args)) /\ ended (main_on (with_room o) (with_room (Some k)) args) = Panic.
Proof.
  intros U R T S o k args Hk Ho. destruct (outcome U R T S o (Some k) args) as [(_ & _ & He & _)|[(_ & (r & -> & Hr & _) & _)|(E1 & (r & [= <-] & _ & E2) & _)]].
  - cbn [enough] in He. apply Nat.leb_le in He. lia.
  - cbn [enough] in Ho. apply Nat.leb_le in Ho. lia.
  - now split.
Qed.

Lemma diverge_silent (U : Unicode) (R : Rust) (T : Terminal) args : ended (main args) = Diverge -> on_stdout (main args) = [].
Proof.
  unfold main. destruct (forallb is_utf8 args); [|reflexivity]. unfold run_of.
  destruct (c83_cases R T args) as [[H _] _].
  destruct (do_main args) as [es r] eqn:E. cbn [ended on_stdout snd] in *. intros Hr.
  destruct (H Hr) as (_ & F & prog & w & t & t' & a & b & -> & Hw & Ha & Hb & Hm & _).
  pose proof (c83_derange R T F prog w t t' a b Hw Ha Hb Hm) as K. rewrite E in K. injection K as -> _. reflexivity.
Qed.

Lemma c85_fits : forall (U : Unicode) (R : Rust) (T : Terminal) (S : Stdio) (o e : option nat) (args : list str),
  enough o (List.length (on_stdout (main args))) = true -> enough e (List.length (on_stderr (main args))) = true ->
  main_on (with_room o) (with_room e) args = main args.
Proof.
  intros U R T S o e args Ho He.
  destruct (outcome U R T S o e args) as [(E1 & E2 & _ & a & b & E3 & _ & _ & E4)|[(_ & (r & -> & Hr & _) & _)|(_ & (r & -> & Hr & _) & _)]].
  - destruct (main_on (with_room o) (with_room e) args) as [x y z]. cbn [on_stdout on_stderr ended] in *. subst y z. rewrite (cut_enough _ _ Ho) in E4.
    destruct (main args) as [x' y' z'] eqn:Em. cbn [on_stdout on_stderr ended] in *. f_equal. destruct z'; [exact E4|exact E4|].
    pose proof (diverge_silent U R T args) as H. rewrite Em in H. specialize (H eq_refl). cbn [on_stdout] in H. subst x'. subst x. now destruct a.
  - cbn [enough] in Ho. apply Nat.leb_le in Ho. lia.
  - cbn [enough] in He. apply Nat.leb_le in He. lia.
Qed.

(** ** How output ends *)
Section Ends.
Context {T : Terminal}.
(** Output without line break that may come last. *)
Inductive remark := Nothing | NoHosts.
Definition tail (k : remark) (b : str) : Prop :=
  b = [] \/ k = NoHosts /\ colors_enabled = true /\ b = styled_text White (lit "no hosts/net").
Definition strong {X} (k : remark) (m : io X) : Prop :=
  forall x, snd m = Ret x -> exists a b, outs (fst m) = a ++ newline ++ b /\ tail k b.
Definition weak {X} (k : remark) (m : io X) : Prop :=
  forall x, snd m = Ret x -> tail k (outs (fst m)) \/ exists a b, outs (fst m) = a ++ newline ++ b /\ tail k b.

Lemma weak_strong {X} k (m : io X) : strong k m -> weak k m.
Proof. intros H x E. right. now apply (H x). Qed.
Lemma weak_ret {X} k (x : X) : weak k (io_ret x).
Proof. intros y _. left. now left. Qed.
Lemma weak_lift {X} k (r : res X) : weak k (io_lift r).
Proof. intros y _. left. now left. Qed.
Lemma weak_eprintln k m : weak k (eprintln m).
Proof. intros y _. left. now left. Qed.
Lemma strong_println k s : strong k (println s).
Proof. intros y _. exists s, []. split; [|now left]. unfold outs. cbn [println print fst flat_map to_stdout]. now rewrite !app_nil_r. Qed.
Lemma bind_split {X Y} (m : io X) (f : X -> io Y) y : snd (io_bind m f) = Ret y ->
  exists x, snd m = Ret x /\ snd (f x) = Ret y /\ outs (fst (io_bind m f)) = outs (fst m) ++ outs (fst (f x)).
Proof.
  unfold io_bind. destruct (snd m) as [x| |]; cbn [fst snd]; intros E; [|discriminate|discriminate]. exists x. unfold outs. now rewrite flat_map_app.
Qed.
Lemma strong_bind_r {X Y} k (m : io X) (f : X -> io Y) : (forall x, snd m = Ret x -> strong k (f x)) -> strong k (io_bind m f).
Proof.
  intros H y E. destruct (bind_split m f y E) as (x & Em & Ef & ->). destruct (H x Em y Ef) as (a & b & -> & Hb). exists (outs (fst m) ++ a), b. now rewrite app_assoc.
Qed.
Lemma strong_bind_println {Y} k s (f : unit -> io Y) : weak k (f tt) -> strong k (io_bind (println s) f).
Proof.
  intros H y E. destruct (bind_split _ f y E) as ([] & _ & Ef & ->). unfold outs at 1. cbn [println print fst flat_map to_stdout].
  rewrite app_nil_r. destruct (H y Ef) as [K|(a & b & -> & Hb)].
  - exists s, (outs (fst (f tt))). now rewrite app_assoc.
  - exists (s ++ newline ++ a), b. now rewrite !app_assoc.
Qed.
Lemma weak_bind {X Y} k (m : io X) (f : X -> io Y) : weak Nothing m -> (forall x, snd m = Ret x -> weak k (f x)) -> weak k (io_bind m f).
Proof.
  intros Hm H y E. destruct (bind_split m f y E) as (x & Em & Ef & ->). destruct (H x Em y Ef) as [K|(a & b & -> & Hb)].
  - destruct (Hm x Em) as [[K'|[K' _]]|(a & b & K' & [->|[Hb _]])]; try discriminate.
    + rewrite K'. now left.
    + right. rewrite K', app_nil_r. exists a, (outs (fst (f x))). now rewrite app_assoc.
  - right. exists (outs (fst m) ++ a), b. now rewrite app_assoc.
Qed.
Lemma weak_end {X Y} k (m : io X) (f : X -> Y) : weak k m -> weak k (io_bind m (fun x => io_ret (f x))).
Proof.
  intros H y E. destruct (bind_split m _ y E) as (x & Em & _ & ->). cbn [io_ret fst]. unfold outs at 2 4. cbn [flat_map]. rewrite app_nil_r. now apply (H x).
Qed.
Lemma weak_more {X} (m : io X) : weak Nothing m -> weak NoHosts m.
Proof.
  assert (A : forall b, tail Nothing b -> tail NoHosts b) by (intros b [->|[K _]]; [now left|discriminate]).
  intros H x E. destruct (H x E) as [K|(a & b & K & Hb)]; [left; now apply A|right; exists a, b; auto].
Qed.
Lemma weak_for {X} (l : list X) (body : X -> io unit) : (forall x, weak Nothing (body x)) -> weak Nothing (io_for l body).
Proof. intros H. induction l as [|x l IH]; cbn [io_for]; [apply weak_ret|]. apply weak_bind; [apply H|]. intros _ _. exact IH. Qed.
Lemma weak_no_hosts : weak NoHosts (write_in_color (lit "no hosts/net") (Some White) 0).
Proof.
  unfold write_in_color. destruct colors_enabled eqn:E; [|apply weak_strong, strong_println].
  intros x _. left. right. split; [reflexivity|]. split; [exact E|]. cbn [fst]. unfold outs. cbn [flat_map to_stdout]. now rewrite app_nil_r.
Qed.
End Ends.
Ltac st := repeat (cbn beta iota; match goal with
  | |- strong _ (io_bind (println _) _) => apply strong_bind_println
  | |- strong _ (io_bind _ _) => apply strong_bind_r; intros
  | |- strong _ (println _) => apply strong_println
  end).
Ltac wk := repeat (cbn beta iota; match goal with
  | |- weak _ (io_ret _) => apply weak_ret
  | |- weak _ (io_lift _) => apply weak_lift
  | |- weak _ (eprintln _) => apply weak_eprintln
  | |- weak _ (println _) => apply weak_strong, strong_println
  | |- weak _ (io_bind _ _) => apply weak_bind; [|intros]
  | |- weak _ (io_for _ _) => apply weak_for; intros
  | |- weak _ (match ?x with _ => _ end) => destruct x
  end).

Section Commands.
Context (R : Rust) (T : Terminal).
Lemma ends_network F lw aw bin cls (n : net F) a : strong NoHosts (output_network lw aw bin cls n a).
Proof.
  unfold output_network. st. apply weak_strong. st. apply weak_strong. st. destruct (0 <? host_count n)%Z; [|apply weak_no_hosts].
  apply weak_strong. st.
Qed.
Lemma ends_nets F (l : list (net F)) : weak Nothing (print_nets l).
Proof. unfold print_nets. wk. Qed.
Lemma ends_subnets F (show : net F -> option (addr F) -> io unit) l : forall i, weak Nothing (output_subnets i l show).
Proof. induction l as [|n l IH]; intros i; cbn [output_subnets]; [apply weak_ret|]. apply weak_strong. st. apply weak_strong. st. apply IH. Qed.
Lemma ends_split F (show : net F -> option (addr F) -> io unit) n cs : weak Nothing (output_split n cs show).
Proof.
  unfold output_split. apply weak_strong. st. apply weak_strong. st. apply weak_bind; [apply weak_lift|]. intros [r|] _; [|wk].
  apply weak_bind; [|intros; wk; apply ends_nets]. apply weak_for. intros [c m]. apply weak_strong. st. apply weak_strong. st.
Qed.
Lemma ends_resize F (show : net F -> option (addr F) -> io unit) n m : weak Nothing (resize_and_output n m show).
Proof.
  unfold resize_and_output. apply weak_bind; [apply weak_lift|]. intros [l c] _. apply weak_strong. st. apply weak_strong. st. destruct c.
  - apply weak_strong. st. apply weak_strong. st.
  - apply weak_strong. st. apply weak_strong. st.
  - apply ends_subnets.
Qed.
Lemma ends_addrs F (n : net F) : weak Nothing (print_addrs n).
Proof.
  unfold print_addrs, io_while. apply weak_bind; [apply weak_lift|]. intros it _. apply weak_bind; [|intros [] _; wk].
  generalize fuel_doublings. intros k. revert it. induction k as [|k IH]; intros it; cbn [io_loop].
  - unfold print_addrs_step. wk.
  - apply weak_bind; [apply IH|]. intros [s|r] _; [apply IH|apply weak_ret].
Qed.
Lemma ends_enumerate l : forall z, weak Nothing (enumerate_loop l z).
Proof.
  induction l as [|s l IH]; intros z; cbn [enumerate_loop]; wk; first [apply IH | apply (ends_addrs V4) | apply (ends_addrs V6)].
Qed.
Lemma ends_command prog w rest : In w command_words -> w <> lit "--color-test" -> weak Nothing (do_main (prog :: w :: rest)).
Proof.
  intros H Hc. unfold do_main. repeat (destruct H as [<-|H]); try (now destruct Hc).
  all: cbn -[minimize derange Main.split resize enumerate usage].
  1-2: unfold minimize, usage; wk; first [apply (ends_nets V4) | apply (ends_nets V6)].
  1-2: unfold derange, usage; wk; first [apply (ends_nets V4) | apply (ends_nets V6)].
  1-2: unfold Main.split, usage; wk; first [apply (ends_split V4) | apply (ends_split V6)].
  1-2: unfold resize, usage; wk; first [apply (ends_resize V4) | apply (ends_resize V6)].
  1-2: unfold enumerate, usage; wk; apply ends_enumerate.
  unfold usage; wk.
Qed.
Lemma specs_more l : l <> [] -> strong NoHosts (show_specs l false).
Proof.
  induction l as [|s l IH]; [congruence|]. intros _. cbn [show_specs]. cbn beta iota. apply strong_bind_println.
  destruct l as [|s' l]; [cbn [show_specs]; apply (weak_end _ _ (fun _ => tt)); destruct s; apply weak_strong; [apply (ends_network V4)|apply (ends_network V6)]|].
  apply weak_strong. apply strong_bind_r. intros _ _. now apply IH.
Qed.
Lemma ends_show args : weak NoHosts (show_net args).
Proof.
  unfold show_net. apply weak_bind; [apply weak_lift|]. intros [specs|e] _; [|wk]. apply (weak_end _ _ (fun _ => 0%Z)).
  destruct specs as [|s [|s' l]]; [apply weak_ret| |]; cbn [show_specs]; (apply weak_bind; [apply weak_ret|]; intros _ _).
  - apply (weak_end _ _ (fun _ => tt)). destruct s; apply weak_strong; [apply (ends_network V4)|apply (ends_network V6)].
  - apply weak_strong. apply strong_bind_r. intros _ _. now apply (specs_more (s' :: l)).
Qed.
End Commands.

(** Without colours, every piece is a line. *)
Lemma plain_write (T : Terminal) s c w : colors_enabled = false -> weak Nothing (write_in_color s c w).
Proof. intros E. unfold write_in_color. rewrite E. destruct c; apply weak_strong, strong_println. Qed.
Lemma plain_tail (T : Terminal) k b : colors_enabled = false -> tail k b -> b = [].
Proof. intros E [H|[_ [H _]]]; [exact H|congruence]. Qed.

Lemma lost_tail x lost a b : x ++ lost = a ++ newline ++ b -> ~ In nl lost -> exists u, b = u ++ lost.
Proof.
  intros E H. rewrite app_assoc in E. apply app_eq_app in E. destruct E as (l & [[E1 E2]|[E1 E2]]); [now exists l|].
  destruct (rev l) as [|c l'] eqn:El.
  - apply (f_equal (@rev ascii)) in El. rewrite rev_involutive in El. subst l. cbn in E2. now exists [].
  - apply (f_equal (@rev ascii)) in El. rewrite rev_involutive in El. cbn [rev] in El. subst l. rewrite app_assoc in E1.
    apply app_inj_tail in E1. destruct E1 as [_ <-]. destruct H. rewrite E2. apply in_or_app. left. apply in_or_app. right. now left.
Qed.
Lemma lost_weak (T : Terminal) k {X} (m : io X) x y lost : weak k m -> snd m = Ret x -> outs (fst m) = y ++ lost -> ~ In nl lost ->
  exists b u, tail k b /\ b = u ++ lost.
Proof.
  intros H E Eo Hn. destruct (H x E) as [K|(a & b & K & Hb)].
  - exists (outs (fst m)), y. now split.
  - exists b. rewrite Eo in K. destruct (lost_tail y lost a b K Hn) as [u ->]. exists u. now split.
Qed.

Lemma lost_end (U : Unicode) (R : Rust) (T : Terminal) args z y lost : Ret z = ended (main args) -> on_stdout (main args) = y ++ lost ->
  ~ In nl lost -> lost <> [] ->
  colors_enabled = true /\ exists prog w rest, args = prog :: w :: rest /\
    (w = lit "--color-test" \/
     ~ In w command_words /\ exists u, styled_text White (lit "no hosts/net") = u ++ lost).
Proof.
  intros E1 El Hl Hne.
  unfold main in E1, El. destruct (forallb is_utf8 args) eqn:Eu; [|discriminate]. unfold run_of in E1, El.
  assert (E1' : snd (do_main args) = Ret z) by (destruct (do_main args); now symmetry).
  assert (El' : outs (fst (do_main args)) = y ++ lost) by (destruct (do_main args); exact El). clear E1 El.
  destruct args as [|prog [|w rest]].
  1-2: exfalso; cbn in El'; symmetry in El'; apply app_eq_nil in El'; tauto.
  assert (Z : forall b u, b = [] -> b = u ++ lost -> False) by (intros b u -> Ez; symmetry in Ez; apply app_eq_nil in Ez; tauto).
  destruct (list_eq_dec Ascii.ascii_dec w (lit "--color-test")) as [->|Hw].
  { destruct colors_enabled eqn:Ec; [split; [reflexivity|]; exists prog, (lit "--color-test"), rest; auto|exfalso].
    assert (weak Nothing (do_main (prog :: lit "--color-test" :: rest))) as K.
    { unfold do_main. cbn -[color_test]. unfold color_test. wk; now apply plain_write. }
    destruct (lost_weak T _ _ _ _ _ K E1' El' Hl) as (b & u & Hb & Eb). apply (Z b u); [now apply (plain_tail T Nothing)|exact Eb]. }
  destruct (in_dec (list_eq_dec Ascii.ascii_dec) w command_words) as [Hin|Hin].
  { exfalso. destruct (lost_weak T _ _ _ _ _ (ends_command R T prog w rest Hin Hw) E1' El' Hl) as (b & u & Hb & Eb). apply (Z b u); [|exact Eb].
    destruct Hb as [Hb|[Hb _]]; [exact Hb|discriminate]. }
  rewrite (run_show R T prog w rest Hin) in E1', El'.
  destruct (lost_weak T _ _ _ _ _ (ends_show R T _) E1' El' Hl) as (b & u & Hb & Eb). destruct Hb as [Hb|(_ & Hc & Hb)]; [destruct (Z b u Hb Eb)|].
  split; [exact Hc|]. exists prog, w, rest. split; [reflexivity|]. right. split; [exact Hin|]. exists u. congruence.
Qed.

Lemma c85_status : forall (U : Unicode) (R : Rust) (T : Terminal) (S : Stdio) (o e : option nat) (args : list str) (z : Z),
  ended (main_on (with_room o) (with_room e) args) = Ret z ->
  ended (main args) = Ret z /\ on_stderr (main args) = on_stderr (main_on (with_room o) (with_room e) args) /\
  exists lost, on_stdout (main args) = on_stdout (main_on (with_room o) (with_room e) args) ++ lost /\ ~ In "010"%char lost /\
    (lost <> [] -> colors_enabled = true /\ exists prog w rest, args = prog :: w :: rest /\
       (w = lit "--color-test" \/
        ~ In w command_words /\ exists u, styled_text White (lit "no hosts/net") = u ++ lost)).
Proof.
  intros U R T S o e args z Eq.
  destruct (outcome U R T S o e args) as [(E1 & E2 & _ & a & b & E3 & Hb & Ha & E4)|[(E1 & _)|(E1 & _)]]; [|congruence|congruence].
  rewrite Eq in E1. split; [congruence|]. split; [congruence|]. rewrite <- E1 in E4.
  assert (L : exists lost, on_stdout (main args) = on_stdout (main_on (with_room o) (with_room e) args) ++ lost /\ ~ In nl lost).
  { rewrite E4. destruct o as [r|]; cbn [cut enough] in *; [|exists []; rewrite app_nil_r; now split]. apply Nat.leb_le in Ha.
    exists (skipn r (on_stdout (main args))). rewrite firstn_skipn. split; [reflexivity|]. rewrite E3, skipn_app.
    rewrite skipn_all2 by exact Ha. cbn [app]. intros H. apply Hb. rewrite <- (firstn_skipn (r - List.length a) b). apply in_or_app. now right. }
  destruct L as (lost & El & Hl). exists lost. split; [exact El|]. split; [exact Hl|]. intros Hne.
  now apply (lost_end U R T args z _ lost E1 El).
Qed.

Lemma c85_reliable_refuted : exists (U : Unicode) (R : Rust) (T : Terminal) (S : Stdio) (args : list str),
  ended (main_on (with_room (Some 0%nat)) (with_room None) args) = Ret 0%Z /\ on_stdout (main_on (with_room (Some 0%nat)) (with_room None) args) <> on_stdout (main args).
Proof.
  exists no_unicode, debug_env, colourful, std_stdio, [lit "ripcalc"; lit "--color-test"]. split; [vm_compute; reflexivity|vm_compute; discriminate].
Qed.
