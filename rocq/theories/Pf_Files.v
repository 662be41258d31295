(** * Pf_Files: proofs for P_Files *)
From Verif Require Import RustBase Addr Net Parse Derange Split Console ShowNet Main Messages Process Sink Spec SpecText SpecIO SpecShow SpecMain SpecProcess SpecFiles Pf_Show Pf_Main Pf_Process Pf_Crash Pf_Sink Demo.
From Coq Require Import ZifyBool ZifyNat ZifyN.
Ltac Zify.zify_post_hook ::= idtac.
Open Scope nat_scope.

Lemma requests_fail fuel : forall f s, List.length s <= fuel -> writable (of_kind f) = true ->
  match requests fuel f s with (_, _, true) => True | (_, _, false) => exists i, fails_at (of_kind f) i end.
Proof.
  induction fuel as [|fuel IH]; intros f [|c s] L W; cbn [requests List.length] in *; try exact I; [lia|].
  destruct (answers (of_kind f) (asked f)) as [[|n]|] eqn:E; [exists (asked f); split; auto| |exists (asked f); split; auto].
  match goal with |- context [requests fuel ?g ?t] => specialize (IH g t); destruct (requests fuel g t) as [[f' m] []] end; [exact I|].
  apply IH; [rewrite skipn_length; cbn [List.length]; lia|exact W].
Qed.

(** What files of kind [k] took. *)
Definition took (k : kind) (f : file) (all : str) : Prop := of_kind f = k /\ taken f = received k all.
Definition broke (k : kind) (w : writer) (all : str) : Prop :=
  of_kind (behind w) = k /\ (exists v, all = taken (behind w) ++ waiting w ++ v) /\ exists i, fails_at k i.
Definition broken (k : kind) (f : file) (all : str) : Prop :=
  of_kind f = k /\ (exists v, all = taken f ++ v) /\ exists i, fails_at k i.

Lemma took_put k f a s : took k f a ->
  match put f s with
  | (f', n, true) => took k f' (a ++ s) /\ n = List.length s
  | (f', n, false) => broke k {| waiting := []; behind := f' |} (a ++ s) /\ broke k {| waiting := skipn n s; behind := f' |} (a ++ s)
  end.
Proof.
  intros [K E]. pose proof (put_kind f s) as Kp. unfold put in *. rewrite K in *. unfold took, received in *. destruct (writable k) eqn:W.
  - pose proof (requests_taken _ f s (le_n _)) as G. pose proof (requests_fail _ f s (le_n _)) as X. rewrite K in X. specialize (X W).
    destruct (requests _ f s) as [[f' n] []]; cbn [fst] in Kp; destruct G as (G & Hn & Ho).
    + specialize (Ho eq_refl). rewrite G, E, Ho, firstn_all. auto.
    + unfold broke. cbn [behind waiting]. rewrite G, E. repeat split; try exact Kp; try exact X.
      * exists (skipn n s). cbn [app]. now rewrite <- app_assoc, firstn_skipn.
      * exists []. now rewrite app_nil_r, <- app_assoc, firstn_skipn.
  - auto.
Qed.
Lemma took_put' k f a s : took k f a ->
  match put f s with (f', n, true) => took k f' (a ++ s) | (f', n, false) => broken k f' (a ++ s) end.
Proof.
  intros H. pose proof (took_put k f a s H) as G. destruct (put f s) as [[f' n] []]; [apply G|]. destruct G as [(G1 & [v G2] & G3) _].
  split; [exact G1|]. split; [|exact G3]. exists v. exact G2.
Qed.
Lemma broke_more k w a s : broke k w a -> broke k w (a ++ s).
Proof. intros (K & (v & ->) & X). split; [exact K|]. split; [|exact X]. exists (v ++ s). now rewrite !app_assoc. Qed.
Lemma broken_more k f a s : broken k f a -> broken k f (a ++ s).
Proof. intros (K & (v & ->) & X). split; [exact K|]. split; [|exact X]. exists (v ++ s). now rewrite !app_assoc. Qed.

(** What the last flush leaves. *)
Lemma flush_took k w a : holds (took k) w a -> exists t u, taken (behind (fst (flush_buf w))) = received k (t ++ u) /\
  a = t ++ waiting w /\ exists v, waiting w = u ++ v /\ (v <> [] -> writable k = true /\ exists i, fails_at k i).
Proof.
  intros (t & [K E] & Ha). exists t. pose proof (took_put k (behind w) t (waiting w) (conj K E)) as G. unfold flush_buf.
  assert (B : match put (behind w) (waiting w) with (f', n, _) => writable k = true -> taken f' = taken (behind w) ++ firstn n (waiting w) end).
  { unfold put. rewrite K. destruct (writable k); [|discriminate]. pose proof (requests_taken _ (behind w) (waiting w) (le_n _)) as H.
    destruct (requests _ _ _) as [[f' n] b]. intros _. apply H. }
  destruct (put (behind w) (waiting w)) as [[f' n] []]; cbn [fst behind with_file].
  - exists (waiting w). destruct G as [[_ G] _]. repeat split; [exact G|exact Ha|]. exists []. rewrite app_nil_r. split; [reflexivity|congruence].
  - destruct G as [(_ & _ & i & W & X) _]. exists (firstn n (waiting w)). split; [|split; [exact Ha|]].
    + rewrite (B W), E. unfold received. now rewrite W.
    + exists (skipn n (waiting w)). rewrite firstn_skipn. split; [reflexivity|]. intros _. split; [exact W|]. exists i. now split.
Qed.
Lemma flush_broke k w a : broke k w a -> exists v, a = taken (behind (fst (flush_buf w))) ++ v.
Proof.
  intros (K & (v & ->) & _). unfold flush_buf.
  assert (B : match put (behind w) (waiting w) with (f', n, _) => exists m, taken f' = taken (behind w) ++ firstn m (waiting w) end).
  { unfold put. destruct (writable _); [|exists 0; cbn [firstn]; now rewrite app_nil_r]. pose proof (requests_taken _ (behind w) (waiting w) (le_n _)) as H.
    destruct (requests _ _ _) as [[f' n] b]. exists n. apply H. }
  destruct (put (behind w) (waiting w)) as [[f' n] b]. cbn [fst behind with_file]. destruct B as [m ->].
  exists (skipn m (waiting w) ++ v). rewrite <- app_assoc. f_equal. rewrite app_assoc. now rewrite firstn_skipn.
Qed.

Section Outcome.
Context (U : Unicode) (R : Rust) (T : Terminal) (S : Stdio) (o e : kind) (args : list str).
Let q := main_on o e args.
Let p := main args.
Lemma outcome :
  (ended q = ended p /\ on_stderr q = received e (on_stderr p) /\
    exists t u v, on_stdout p = t ++ u ++ v /\ ~ In nl (u ++ v) /\
      on_stdout q = match ended p with Diverge => received o t | _ => received o (t ++ u) end /\
      (v <> [] -> writable o = true /\ exists i, fails_at o i)) \/
  (ended q = Panic /\ (exists i, fails_at o i \/ fails_at e i) /\
    exists u v, on_stdout p = on_stdout q ++ u /\ on_stderr p = on_stderr q ++ v).
Proof.
  unfold q, p. clear q p. unfold main_on, main, run_of. destruct (forallb is_utf8 args).
  2:{ left. cbn. unfold received. repeat split; [now destruct (writable e)|]. exists [], [], []. repeat split; [intros []|now destruct (writable o)|congruence..]. }
  destruct (do_main args) as [es r]. cbv zeta.
  set (start := {| out := _; err := _ |}).
  assert (Hs : stores (took o) (out start) []).
  { split; [exists []; cbn; split; [split; [reflexivity|unfold received; now destruct (writable o)]|reflexivity]|intros []]. }
  assert (He : took e (err start) []) by (split; [reflexivity|cbn; unfold received; now destruct (writable e)]).
  pose proof (events_inv (took o) (took e) (broke o) (broken e) (took_put o) (took_put' e) (broke_more o) (broken_more e) es start [] [] Hs He) as K.
  destruct (write_events start es) as [o' []]; cbn [app] in K; cbn [on_stdout on_stderr ended]; fold outs in *; fold (@errs U) in *.
  - left. destruct K as [[K1 K3] [_ K2]]. repeat split; [exact K2|].
    destruct (flush_took _ _ _ K1) as (t & u & E1 & E2 & v & E3 & Hv). exists t, u, v. rewrite <- E3. repeat split; [exact E2|exact K3| |apply Hv; assumption..].
    destruct r; [exact E1|exact E1|]. destruct K1 as (t' & [_ Kt] & E4). rewrite Kt. f_equal. rewrite E2 in E4. now apply app_inv_tail in E4.
  - right. split; [reflexivity|]. destruct K as [[K1 (u & v & E & [_ K2])]|[(_ & (v' & E') & i & K1) (u & v & E & [K2 _])]].
    + split; [destruct K1 as (_ & _ & i & X); exists i; now left|]. destruct (flush_broke _ _ _ K1) as [w Hw]. exists w.
      rewrite K2. unfold received. destruct (writable e); [exists v; now split|exists (errs es); now split].
    + split; [exists i; now right|]. destruct (flush_took _ _ _ K2) as (t & u' & E1 & E2 & w & E3 & _).
      rewrite E1, E, E2, E3. unfold received. destruct (writable o).
      * exists (w ++ v), v'. split; [|exact E']. now rewrite !app_assoc.
      * eexists _, v'. split; [reflexivity|exact E'].
Qed.
End Outcome.

Lemma c89_ended : forall (U : Unicode) (R : Rust) (T : Terminal) (S : Stdio) (o e : kind) (args : list str),
  ended (main_on o e args) = ended (main args) \/
  ended (main_on o e args) = Panic /\ exists i, fails_at o i \/ fails_at e i.
Proof. intros U R T S o e args. destruct (outcome U R T S o e args) as [(E & _)|(E & X & _)]; auto. Qed.

Lemma c89_beginning : forall (U : Unicode) (R : Rust) (T : Terminal) (S : Stdio) (o e : kind) (args : list str),
  exists u v, on_stdout (main args) = on_stdout (main_on o e args) ++ u /\ on_stderr (main args) = on_stderr (main_on o e args) ++ v.
Proof.
  intros U R T S o e args. destruct (outcome U R T S o e args) as [(_ & -> & t & u & v & -> & _ & -> & _)|(_ & _ & X)]; [|exact X].
  unfold received. destruct (writable o), (writable e); destruct (ended (main args)); eexists _, _; (split; [|first [now rewrite app_nil_r|reflexivity]]);
    first [reflexivity | now rewrite app_assoc | now rewrite <- app_assoc].
Qed.

Lemma c89_obliging : forall (U : Unicode) (R : Rust) (T : Terminal) (S : Stdio) (o e : kind) (args : list str),
  obliging o -> obliging e ->
  main_on o e args =
    {| on_stdout := received o (on_stdout (main args)); on_stderr := received e (on_stderr (main args)); ended := ended (main args) |}.
Proof.
  intros U R T S o e args Ho He.
  assert (N : forall k, obliging k -> forall i, ~ fails_at k i).
  { intros k H i [W [X|X]]; destruct (H W i) as [n E]; congruence. }
  destruct (outcome U R T S o e args) as [(E1 & E2 & t & u & v & E3 & _ & E4 & Hv)|(_ & (i & [X|X]) & _)]; [|destruct (N o Ho i X)|destruct (N e He i X)].
  assert (v = []) as ->. { destruct v; [reflexivity|]. destruct Hv as [_ [i X]]; [discriminate|]. destruct (N o Ho i X). }
  rewrite app_nil_r in E3. pose proof (diverge_silent U R T args) as D.
  destruct (main_on o e args) as [x y z]. cbn [on_stdout on_stderr ended] in *. subst x y z. f_equal. rewrite E3.
  destruct (ended (main args)); try reflexivity. specialize (D eq_refl). rewrite E3 in D. apply app_eq_nil in D. destruct D as [-> ->]. reflexivity.
Qed.

Lemma c89_status : forall (U : Unicode) (R : Rust) (T : Terminal) (S : Stdio) (o e : kind) (args : list str) (z : Z),
  ended (main_on o e args) = Ret z ->
  ended (main args) = Ret z /\ on_stderr (main_on o e args) = received e (on_stderr (main args)) /\
  exists kept lost, on_stdout (main args) = kept ++ lost /\ on_stdout (main_on o e args) = received o kept /\ ~ In "010"%char lost /\
    (lost <> [] -> colors_enabled = true /\ exists prog w rest, args = prog :: w :: rest /\
       (w = lit "--color-test" \/
        ~ In w command_words /\ exists u, styled_text White (lit "no hosts/net") = u ++ lost)).
Proof.
  intros U R T S o e args z Ez.
  destruct (outcome U R T S o e args) as [(E1 & E2 & t & u & v & E3 & Hn & E4 & Hv)|(E & _)]; [|congruence].
  rewrite <- E1, Ez in E4. split; [congruence|]. split; [exact E2|]. exists (t ++ u), v. rewrite <- app_assoc. split; [exact E3|]. split; [exact E4|].
  assert (Hl : ~ In nl v) by (intros X; apply Hn, in_or_app; now right). split; [exact Hl|]. intros Hne.
  apply (lost_end U R T args z (t ++ u) v); [congruence|now rewrite <- app_assoc|exact Hl|exact Hne].
Qed.
