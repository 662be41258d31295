(** * RegexFacts: what the patterns of mod.rs match *)
From Verif Require Import RustBase Addr Spec SpecText Regex Parse TextFacts.
From Coq Require Import ZifyBool ZifyNat ZifyN.
Ltac Zify.zify_post_hook ::= idtac.

(** [r] can match the text [m] with captures [c]. *)
Inductive matches : regex -> caps -> str -> Prop :=
| m_empty : matches REmpty [] []
| m_char p c : p c = true -> matches (RChar p) [] [c]
| m_star p m : Forall (fun c => p c = true) m -> matches (RStar p) [] m
| m_seq r1 r2 c1 c2 m1 m2 : matches r1 c1 m1 -> matches r2 c2 m2 ->
    matches (RSeq r1 r2) (c1 ++ c2) (m1 ++ m2)
| m_none r : matches (ROpt r) [] []
| m_some r c m : matches r c m -> matches (ROpt r) c m
| m_cap name r c m : matches r c m -> matches (RCap name r) ((name, m) :: c) m.

Lemma star_spec p s m rest : In (m, rest) (star_match p s) <-> s = m ++ rest /\ Forall (fun c => p c = true) m.
Proof.
  revert m rest. induction s as [|c s IH]; intros m rest; cbn [star_match].
  - split.
    + intros [E|[]]. inversion E; subst. split; [reflexivity|constructor].
    + intros [E _]. symmetry in E. apply app_eq_nil in E. destruct E as [-> ->]. now left.
  - assert (In (m, rest) [([], c :: s)] <-> m = [] /\ rest = c :: s) as A.
    { split; [intros [E|[]]; inversion E; auto|intros [-> ->]; now left]. }
    destruct (p c) eqn:Ep.
    + rewrite in_app_iff, A, in_map_iff. split.
      * intros [((m', rest') & E & I)|[-> ->]].
        -- inversion E; subst. apply IH in I. destruct I as [-> F]. split; [reflexivity|now constructor].
        -- split; [reflexivity|constructor].
      * intros [E F]. destruct m as [|x m]; [right; auto|]. inversion E; subst. inversion F; subst.
        left. exists (m, rest). split; [reflexivity|]. apply IH. auto.
    + rewrite A. split.
      * intros [-> ->]. split; [reflexivity|constructor].
      * intros [E F]. destruct m as [|x m]; [auto|]. inversion E; subst. inversion F; subst. congruence.
Qed.

Lemma rmatch_spec r s c m rest : In (c, m, rest) (rmatch r s) <-> s = m ++ rest /\ matches r c m.
Proof.
  revert s c m rest. induction r as [|p|p|r1 IH1 r2 IH2|r IH|name r IH]; intros s c m rest; cbn [rmatch].
  - split.
    + intros [E|[]]. inversion E; subst. split; [reflexivity|constructor].
    + intros [-> M]. inversion M; subst. now left.
  - split.
    + destruct s as [|x s]; [intros []|]. destruct (p x) eqn:E; [|intros []]. intros [E'|[]].
      inversion E'; subst. split; [reflexivity|now constructor].
    + intros [-> M]. inversion M; subst. cbn [List.app]. rewrite H0. now left.
  - rewrite in_map_iff. split.
    + intros ((m', rest') & E & I). inversion E; subst. apply star_spec in I. destruct I as [-> F].
      split; [reflexivity|now constructor].
    + intros [-> M]. inversion M; subst. exists (m, rest). split; [reflexivity|]. now apply star_spec.
  - rewrite in_flat_map. split.
    + intros (((c1, m1), rest1) & I1 & I). apply in_map_iff in I. destruct I as (((c2, m2), rest2) & E & I2).
      inversion E; subst. apply IH1 in I1. apply IH2 in I2. destruct I1 as [-> M1], I2 as [-> M2].
      split; [now rewrite app_assoc|now constructor].
    + intros [-> M]. inversion M; subst. exists (c1, m1, m2 ++ rest). split.
      * apply IH1. split; [now rewrite app_assoc|assumption].
      * apply in_map_iff. exists (c2, m2, rest). split; [reflexivity|]. apply IH2. auto.
  - rewrite in_app_iff, IH. split.
    + intros [[-> M]|[E|[]]]; [split; [reflexivity|now constructor]|]. inversion E; subst.
      split; [reflexivity|constructor].
    + intros [-> M]. inversion M; subst; [right; now left|left; auto].
  - rewrite in_map_iff. split.
    + intros (((c', m'), rest') & E & I). inversion E; subst. apply IH in I. destruct I as [-> M].
      split; [reflexivity|now constructor].
    + intros [-> M]. inversion M; subst. exists (c0, m, rest). split; [reflexivity|]. apply IH. auto.
Qed.

Lemma captures_some r s c : captures r s = Some c -> matches r c s.
Proof.
  unfold captures. destruct (find _ _) as [[[c' m] rest]|] eqn:E; [|discriminate].
  intros E'. inversion E'; subst. apply find_some in E. destruct E as [I E]. destruct rest; [|discriminate].
  apply rmatch_spec in I. destruct I as [-> M]. now rewrite app_nil_r.
Qed.

Lemma captures_none r s c : captures r s = None -> ~ matches r c s.
Proof.
  unfold captures. destruct (find _ _) as [[[c' m] rest]|] eqn:E; [discriminate|].
  intros _ M. apply find_none with (x := (c, s, [])) in E; [discriminate|].
  apply rmatch_spec. now rewrite app_nil_r.
Qed.

(** Character classes. *)
Lemma cls_in l c : cls l c = true <-> In c l.
Proof.
  unfold cls. rewrite existsb_exists. split.
  - intros (x & I & E). apply Ascii.eqb_eq in E. now subst.
  - intros I. exists c. split; [assumption|apply Ascii.eqb_refl].
Qed.

Lemma cls_forall l s : Forall (fun c => cls l c = true) s <-> Forall (fun c => In c l) s.
Proof. split; apply Forall_impl; intros c; apply cls_in. Qed.

Lemma m_seq_inv r1 r2 c s : matches (RSeq r1 r2) c s <->
  exists c1 c2 m1 m2, c = c1 ++ c2 /\ s = m1 ++ m2 /\ matches r1 c1 m1 /\ matches r2 c2 m2.
Proof.
  split.
  - intros M. inversion M; subst. exists c1, c2, m1, m2. auto.
  - intros (c1 & c2 & m1 & m2 & -> & -> & M1 & M2). now constructor.
Qed.

Lemma m_plus p c s : matches (RPlus p) c s <-> c = [] /\ s <> [] /\ Forall (fun c => p c = true) s.
Proof.
  split.
  - intros M. apply m_seq_inv in M. destruct M as (c1 & c2 & m1 & m2 & -> & -> & M1 & M2).
    inversion M1; subst. inversion M2; subst. split; [reflexivity|]. split; [discriminate|]. now constructor.
  - intros (-> & Hne & F). destruct s as [|x s]; [congruence|]. inversion F; subst.
    change (x :: s) with ([x] ++ s). change (@nil (string * str)) with (@nil (string * str) ++ []).
    constructor; now constructor.
Qed.

Lemma m_digits c s : matches (RPlus cls_digit) c s <-> c = [] /\ decimal s.
Proof. rewrite m_plus. unfold decimal, cls_digit. now rewrite cls_forall. Qed.

Lemma m_v6 c s : matches (RPlus cls_v6) c s <-> c = [] /\ s <> [] /\ hexcolon s.
Proof. rewrite m_plus. unfold hexcolon, cls_v6. now rewrite cls_forall. Qed.

Lemma m_one x c s : matches (RChar (cls_one x)) c s <-> c = [] /\ s = [x].
Proof.
  split.
  - intros M. inversion M as [|p y Hy E| | | | |]; subst. unfold cls_one in Hy. apply Ascii.eqb_eq in Hy. subst. auto.
  - intros [-> ->]. constructor. apply Ascii.eqb_refl.
Qed.

Lemma m_cap_inv n r c s : matches (RCap n r) c s <-> exists c', c = (n, s) :: c' /\ matches r c' s.
Proof.
  split.
  - intros M. inversion M; subst. eauto.
  - intros (c' & -> & M). now constructor.
Qed.

Lemma m_opt_inv r c s : matches (ROpt r) c s <-> (c = [] /\ s = []) \/ matches r c s.
Proof.
  split.
  - intros M. inversion M; subst; auto.
  - intros [[-> ->]|M]; [constructor|now constructor].
Qed.

Lemma m_empty_inv c s : matches REmpty c s <-> c = [] /\ s = [].
Proof. split; [intros M; inversion M; auto|intros [-> ->]; constructor]. Qed.

Lemma m_ipv4 c s : matches R_IPV4 c s <-> c = [] /\ dotted s.
Proof.
  unfold R_IPV4. cbn [RRep].
  assert (forall r (P : str -> Prop), (forall c s, matches r c s <-> c = [] /\ P s) ->
    forall c s, matches (RSeq (RSeq (RChar (cls_one ".")) (RPlus cls_digit)) r) c s <->
      c = [] /\ exists t u, s = "."%char :: t ++ u /\ decimal t /\ P u) as A.
  { intros r P Hr c' s'. rewrite m_seq_inv. split.
    - intros (c1 & c2 & m1 & m2 & -> & -> & M1 & M2). apply Hr in M2. destruct M2 as [-> Pu].
      apply m_seq_inv in M1. destruct M1 as (d1 & d2 & n1 & n2 & -> & -> & M1 & M2).
      apply m_one in M1. apply m_digits in M2. destruct M1 as [-> ->], M2 as [-> D].
      split; [reflexivity|]. exists n2, m2. auto.
    - intros (-> & t & u & -> & D & Pu). exists [], [], ("."%char :: t), u. repeat split.
      + apply m_seq_inv. exists [], [], ["."%char], t. repeat split; [now apply m_one|now apply m_digits].
      + now apply Hr. }
  rewrite m_seq_inv. split.
  - intros (c1 & c2 & m1 & m2 & -> & -> & M1 & M2). apply m_digits in M1. destruct M1 as [-> D0].
    eapply A in M2; [|intros; apply A; intros; apply A; intros; apply m_empty_inv].
    destruct M2 as (-> & t1 & u1 & -> & D1 & t2 & u2 & -> & D2 & t3 & u3 & -> & D3 & ->).
    split; [reflexivity|]. exists m1, t1, t2, t3. rewrite app_nil_r. auto.
  - intros (-> & t0 & t1 & t2 & t3 & D0 & D1 & D2 & D3 & ->).
    exists [], [], t0, ("."%char :: t1 ++ "."%char :: t2 ++ "."%char :: t3). repeat split.
    + now apply m_digits.
    + eapply A; [intros; apply A; intros; apply A; intros; apply m_empty_inv|]. split; [reflexivity|].
      exists t1, ("."%char :: t2 ++ "."%char :: t3). split; [reflexivity|]. split; [assumption|].
      exists t2, ("."%char :: t3). split; [reflexivity|]. split; [assumption|].
      exists t3, []. rewrite app_nil_r. auto.
Qed.

Lemma m_mask6 c s :
  matches (RSeq (RStar cls_v6) (RSeq (RChar (cls_one ":")) (RStar cls_v6))) c s <-> c = [] /\ hexcolon s /\ In ":"%char s.
Proof.
  assert (forall c s, matches (RStar cls_v6) c s <-> c = [] /\ hexcolon s) as A.
  { intros c' s'. split.
    - intros M. inversion M; subst. split; [reflexivity|]. now apply cls_forall.
    - intros [-> H]. constructor. now apply cls_forall. }
  rewrite m_seq_inv. split.
  - intros (c1 & c2 & m1 & m2 & -> & -> & M1 & M2). apply A in M1. destruct M1 as [-> H1].
    apply m_seq_inv in M2. destruct M2 as (d1 & d2 & n1 & n2 & -> & -> & M2 & M3).
    apply m_one in M2. apply A in M3. destruct M2 as [-> ->], M3 as [-> H3]. split; [reflexivity|]. split.
    + apply Forall_app. split; [assumption|]. apply Forall_app. split; [|assumption].
      constructor; [|constructor]. vm_compute. tauto.
    + apply in_or_app. right. now left.
  - intros (-> & H & I). apply in_split in I. destruct I as (u & v & ->). apply Forall_app in H.
    destruct H as [Hu Hv]. inversion Hv; subst. exists [], [], u, (":"%char :: v). repeat split.
    + now apply A.
    + apply m_seq_inv. exists [], [], [":"%char], v. repeat split; [now apply m_one|now apply A].
Qed.

Lemma m_slash c s : matches R_SLASH_WILDCARD c s <->
  exists w : bool, c = (if w then [("wildcard"%string, ["-"%char])] else []) /\
    s = "/"%char :: (if w then ["-"%char] else []).
Proof.
  unfold R_SLASH_WILDCARD. rewrite m_seq_inv. split.
  - intros (c1 & c2 & m1 & m2 & -> & -> & M1 & M2). apply m_one in M1. destruct M1 as [-> ->].
    apply m_opt_inv in M2. destruct M2 as [[-> ->]|M2]; [now exists false|].
    apply m_cap_inv in M2. destruct M2 as (c' & -> & M2). apply m_one in M2. destruct M2 as [-> ->]. now exists true.
  - intros ([|] & -> & ->).
    + exists [], [("wildcard"%string, ["-"%char])], ["/"%char], ["-"%char]. repeat split; [now apply m_one|].
      apply m_opt_inv. right. apply m_cap_inv. exists []. split; [reflexivity|now apply m_one].
    + exists [], [], ["/"%char], []. repeat split; [now apply m_one|]. apply m_opt_inv. auto.
Qed.

(** A whole pattern. *)
Definition caps_of (A : str) (w : bool) (n : string) (M : str) : caps :=
  ("addr"%string, A) :: (if w then [("wildcard"%string, ["-"%char])] else []) ++ [(n, M)].

Lemma m_spec ra rm (PA PM : str -> Prop) n c s :
  (forall c s, matches ra c s <-> c = [] /\ PA s) ->
  (forall c s, matches rm c s <-> c = [] /\ PM s) ->
  matches (RSeq (RCap "addr" ra) (RSeq R_SLASH_WILDCARD (RCap n rm))) c s <->
  exists A w M, s = spec_text A w M /\ c = caps_of A w n M /\ PA A /\ PM M.
Proof.
  intros Ha Hm. rewrite m_seq_inv. split.
  - intros (c1 & c2 & m1 & m2 & -> & -> & M1 & M2).
    apply m_cap_inv in M1. destruct M1 as (c' & -> & M1). apply Ha in M1. destruct M1 as [-> P1].
    apply m_seq_inv in M2. destruct M2 as (d1 & d2 & n1 & n2 & -> & -> & M2 & M3).
    apply m_slash in M2. destruct M2 as (w & -> & ->).
    apply m_cap_inv in M3. destruct M3 as (c' & -> & M3). apply Hm in M3. destruct M3 as [-> P3].
    exists m1, w, n2. auto.
  - intros (A & w & M & -> & -> & P1 & P2).
    exists [("addr"%string, A)], ((if w then [("wildcard"%string, ["-"%char])] else []) ++ [(n, M)]),
      A, ("/"%char :: (if w then ["-"%char] else []) ++ M).
    split; [reflexivity|]. split; [reflexivity|]. split.
    + apply m_cap_inv. exists []. split; [reflexivity|]. now apply Ha.
    + apply m_seq_inv. exists (if w then [("wildcard"%string, ["-"%char])] else []), [(n, M)],
        ("/"%char :: (if w then ["-"%char] else [])), M. split; [reflexivity|]. split; [reflexivity|]. split.
      * apply m_slash. now exists w.
      * apply m_cap_inv. exists []. split; [reflexivity|]. now apply Hm.
Qed.

(** The text of a specification determines its parts. *)
Definition noslash (s : str) : Prop := ~ In "/"%char s.
Definition nominus (s : str) : Prop := forall t, s <> "-"%char :: t.

Lemma first_slash A B X Y : noslash A -> noslash B ->
  A ++ "/"%char :: X = B ++ "/"%char :: Y -> A = B /\ X = Y.
Proof.
  revert B. induction A as [|a A IH]; intros B HA HB E; destruct B as [|b B]; cbn [List.app] in E.
  - now inversion E.
  - inversion E; subst. exfalso. apply HB. now left.
  - inversion E; subst. exfalso. apply HA. now left.
  - inversion E; subst. destruct (IH B) as [-> ->]; auto.
    + intros I. apply HA. now right.
    + intros I. apply HB. now right.
Qed.

Lemma spec_text_inj A w M B x N : noslash A -> noslash B -> nominus M -> nominus N ->
  spec_text A w M = spec_text B x N -> A = B /\ w = x /\ M = N.
Proof.
  intros HA HB HM HN E. unfold spec_text in E. apply first_slash in E; try assumption.
  destruct E as [-> E]. split; [reflexivity|]. destruct w, x; cbn [List.app] in E.
  - inversion E. auto.
  - now destruct (HN M).
  - now destruct (HM N).
  - auto.
Qed.

Lemma decimal_not c s : ~ In c (lit "0123456789") -> decimal s -> ~ In c s.
Proof. intros H [_ D] I. rewrite Forall_forall in D. auto. Qed.
Lemma hexcolon_not c s : ~ In c (lit "0123456789abcdef:") -> hexcolon s -> ~ In c s.
Proof. intros H D I. unfold hexcolon in D. rewrite Forall_forall in D. auto. Qed.
Lemma dotted_not c s : ~ In c (lit "0123456789") -> c <> "."%char -> dotted s -> ~ In c s.
Proof.
  intros H Hd (t0 & t1 & t2 & t3 & D0 & D1 & D2 & D3 & ->).
  apply (decimal_not c) in D0, D1, D2, D3; try assumption.
  rewrite in_app_iff. cbn [In]. rewrite in_app_iff. cbn [In]. rewrite in_app_iff. cbn [In]. intuition congruence.
Qed.

Ltac notin := solve [vm_compute; intuition discriminate].

Lemma not_in_minus s : ~ In "-"%char s -> nominus s.
Proof. intros H t ->. apply H. now left. Qed.

Lemma decimal_nominus s : decimal s -> nominus s.
Proof. intros D. apply not_in_minus. apply decimal_not; [notin|assumption]. Qed.

Lemma addr_shape_noslash F s : addr_shape F s -> noslash s.
Proof.
  destruct F; cbn [addr_shape].
  - apply dotted_not; [notin|discriminate].
  - intros [_ H]. apply hexcolon_not; [notin|assumption].
Qed.
Lemma mask_shape_nominus F s : mask_shape F s -> nominus s.
Proof.
  intros H. apply not_in_minus. destruct F; cbn [mask_shape] in H.
  - apply dotted_not; [notin|discriminate|assumption].
  - apply hexcolon_not; [notin|apply H].
Qed.

Lemma dotted_dot s : dotted s -> In "."%char s.
Proof. intros (t0 & t1 & t2 & t3 & _ & _ & _ & _ & ->). apply in_or_app. right. now left. Qed.

Lemma addr_shape_excl s : addr_shape V4 s -> addr_shape V6 s -> False.
Proof.
  intros H [_ K]. apply dotted_dot in H. apply (hexcolon_not "."%char) in K; [auto|notin].
Qed.
Lemma mask_shape_decimal F s : mask_shape F s -> decimal s -> False.
Proof.
  intros H D. destruct F; cbn [mask_shape] in H.
  - apply dotted_dot in H. apply (decimal_not "."%char) in D; [auto|notin].
  - apply (decimal_not ":"%char) in D; [|notin]. now apply D.
Qed.

(** The captures are those of the only way to match. *)
Lemma captures_spec ra rm (PA PM : str -> Prop) n s :
  (forall c s, matches ra c s <-> c = [] /\ PA s) ->
  (forall c s, matches rm c s <-> c = [] /\ PM s) ->
  (forall s, PA s -> noslash s) -> (forall s, PM s -> nominus s) ->
  let r := RSeq (RCap "addr" ra) (RSeq R_SLASH_WILDCARD (RCap n rm)) in
  (forall A w M, s = spec_text A w M -> PA A -> PM M -> captures r s = Some (caps_of A w n M)) /\
  (captures r s = None \/ exists A w M, s = spec_text A w M /\ PA A /\ PM M).
Proof.
  intros Ha Hm HA HM r. split.
  - intros A w M -> P1 P2. destruct (captures r (spec_text A w M)) as [c|] eqn:E.
    + apply captures_some in E. apply (m_spec ra rm PA PM) in E; try assumption.
      destruct E as (B & x & N & Es & -> & Q1 & Q2).
      apply spec_text_inj in Es; auto. now destruct Es as (-> & -> & ->).
    + exfalso. apply captures_none with (c := caps_of A w n M) in E. apply E.
      apply (m_spec ra rm PA PM); try assumption. exists A, w, M. auto.
  - destruct (captures r s) as [c|] eqn:E; [right|now left].
    apply captures_some in E. apply (m_spec ra rm PA PM) in E; try assumption.
    destruct E as (A & w & M & Es & _ & P1 & P2). exists A, w, M. auto.
Qed.
