(** * Pf_Messages: proofs about messages *)
From Coq Require Import ZifyBool ZifyNat ZifyN.
From Verif Require Import RustBase Addr Parse Console Messages Main Process Spec SpecText SpecShow SpecMain SpecProcess SpecMessages Env TextFacts Utf8Facts Pf_Process.
Ltac Zify.zify_post_hook ::= idtac.

(** ** The model's messages follow the catalogue *)
Lemma shows_dec n : shows n (fmt_dec n).
Proof. apply fmt_radix_usual. now left. Qed.
Lemma like (pattern : string) (ps : list (str -> Prop)) (l : str) xs :
  Forall2 (fun p x => p x) ps xs -> l = fill_in (lit pattern) xs -> reading_like pattern ps l.
Proof. intros H E. now exists xs. Qed.

Section Wording.
  Context `{Unicode}.
  Lemma quotes_debug s : unicode s -> quotes s (debug_str s).
  Proof. intros Hs. unfold quotes. rewrite <- (app_nil_r (debug_str s)). now apply c71_literal. Qed.
  Ltac fits := cbn [fill_in lit list_ascii_of_string app]; rewrite ?app_nil_r; reflexivity.
  Lemma int_text_worded e : int_wording e (int_error_text e).
  Proof. destruct e; exists []; (split; [constructor|fits]). Qed.
  Lemma int_debug_worded e : int_name e (int_error_debug e).
  Proof. destruct e; exists []; (split; [constructor|fits]). Qed.
  Ltac places := repeat (constructor; [first [apply shows_dec | now apply quotes_debug | apply int_text_worded | apply int_debug_worded | reflexivity | eassumption]|]); constructor.
  Lemma addr_text_worded e : Forall unicode (carried_addr e) -> addr_wording e (addr_error_text e).
  Proof.
    destruct e; cbn [carried_addr addr_wording addr_error_text]; intros Hc; try (inversion Hc; subst).
    - eapply (like _ _ _ []); [places|fits].
    - eapply (like _ _ _ [_; _]); [places|fits].
    - eapply (like _ _ _ [_]); [places|fits].
    - eapply (like _ _ _ [_; _; _]); [places|fits].
    - eapply (like _ _ _ [_; _; _; _]); [places|fits].
    - eapply (like _ _ _ [_; _]); [places|fits].
  Qed.
  Lemma addr_debug_worded e : Forall unicode (carried_addr e) -> addr_name e (addr_error_debug e).
  Proof.
    destruct e; cbn [carried_addr addr_name addr_error_debug]; intros Hc; try (inversion Hc; subst).
    - eapply (like _ _ _ []); [places|fits].
    - eapply (like _ _ _ [_; _]); [places|fits].
    - eapply (like _ _ _ [_]); [places|fits].
    - eapply (like _ _ _ [_; _; _]); [places|fits].
    - eapply (like _ _ _ [_; _; _; _]); [places|fits].
    - eapply (like _ _ _ [_; _]); [places|fits].
  Qed.
  Lemma spec_text_worded e : Forall unicode (carried_spec e) -> spec_wording e (netspec_error_text e).
  Proof.
    destruct e; cbn [carried_spec spec_wording netspec_error_text]; intros Hc.
    - inversion Hc; subst. eapply (like _ _ _ [_]); [places|fits].
    - apply addr_debug_worded in Hc. eapply (like _ _ _ [_]); [places|fits].
    - apply addr_debug_worded in Hc. eapply (like _ _ _ [_]); [places|fits].
    - eapply (like _ _ _ [_]); [places|fits].
    - eapply (like _ _ _ [_; _]); [places|fits].
  Qed.
  Lemma message_worded m : Forall unicode (carried m) -> capped m -> m <> MsgUsage -> exists l, message_lines m = [l] /\ wording m l.
  Proof.
    intros Hc Hm Hu. destruct m; cbn [message_lines carried wording] in *; try easy; eexists; (split; [reflexivity|]);
      try (inversion Hc; subst);
      try match goal with H : Forall unicode (carried_spec _) |- _ => apply spec_text_worded in H end;
      try match goal with H : Forall unicode (carried_addr _) |- _ => apply addr_text_worded in H end;
      try assumption;
      try (eapply (like _ _ _ []); [places|fits]);
      try (eapply (like _ _ _ [_]); [places|fits]);
      try (eapply (like _ _ _ [_; _]); [places|fits]).
    destruct Hm as [-> | ->]; cbn [N.eqb Pos.eqb]; eapply (like _ _ _ [_; _; _]); [places| |places|]; fits.
  Qed.
End Wording.

Lemma worded (U : Unicode) (R : Rust) (T : Terminal) (args : list str) :
  Forall unicode args ->
  exists ls, told (problems (fst (do_main args))) ls /\ on_stderr (main args) = lines ls /\ Forall tidy ls.
Proof.
  intros Ha. rewrite main_run by exact Ha. cbn [on_stderr]. pose proof (neat_do_main R T args Ha) as Hn. unfold neat in Hn.
  induction Hn as [|e es He Hn (ls & E & Hl & Ht)]; [exists []; split; [constructor|split; [reflexivity|constructor]]|].
  unfold problems in *. cbn [flat_map]. rewrite Hl. destruct e as [s|c s|m]; cbn [to_stderr app]; try (now exists ls).
  destruct He as [He Hm]. pose proof (message_tidy U m He) as Htm. destruct (match m with MsgUsage => true | _ => false end) eqn:Em.
  - destruct m; try discriminate. exists (usage_text ++ ls). split; [now constructor|]. split; [now rewrite lines_app|]. now apply Forall_app.
  - destruct (message_worded m He Hm) as (l & El & Hw); [now intros ->|]. exists (l :: ls). split; [now constructor|].
    rewrite El in Htm. inversion Htm; subst. split; [|now constructor].
    unfold message_text. rewrite El. cbn [flat_map lines]. now rewrite app_nil_r.
Qed.
Lemma c73_wording : forall (U : Unicode) (R : Rust) (T : Terminal) (args : list str),
  Forall unicode args ->
  exists ls, told (problems (fst (do_main args))) ls /\ on_stderr (main args) = lines ls.
Proof. intros U R T args Ha. destruct (worded U R T args Ha) as (ls & H & E & _). now exists ls. Qed.

(** ** The catalogue can be read back *)
Definition no_digit (s : str) : Prop := match s with c :: _ => digit_below 10 c = None | [] => True end.
Lemma numeral_app s : forall acc n c r, numeral_from 10 acc (s ++ c :: r) = Some n -> digit_below 10 c <> None.
Proof.
  induction s as [|d s IH]; intros acc n c r; cbn [numeral_from app].
  - now destruct (digit_below 10 c).
  - destruct (digit_below 10 d); [apply IH|discriminate].
Qed.
Lemma numeral_nonempty s n : numeral 10 s = Some n -> s <> [] /\ numeral_from 10 0 s = Some n.
Proof. destruct s; [discriminate|]. cbn [numeral]. intros H. split; [discriminate|exact H]. Qed.
Lemma prefixes {X} (t t' r r' : list X) : t ++ r = t' ++ r' ->
  (exists c u, t' = t ++ c :: u /\ r = c :: u ++ r') \/ (exists c u, t = t' ++ c :: u /\ r' = c :: u ++ r) \/ t = t' /\ r = r'.
Proof.
  revert t'. induction t as [|x t IH]; intros [|x' t'] E; cbn [app] in E.
  - right; right. now split.
  - left. exists x', t'. now split.
  - right; left. exists x, t. now split.
  - inversion E as [[E1 E2]]. subst. destruct (IH _ E2) as [(c & u & -> & ->)|[(c & u & -> & ->)|[-> ->]]]; [left|right; left|right; right; now split]; exists c, u; now split.
Qed.
Lemma shows_det n n' t t' r r' : shows n t -> shows n' t' -> t ++ r = t' ++ r' -> no_digit r -> no_digit r' -> n = n' /\ r = r'.
Proof.
  intros (H & _) (H' & _) E Hr Hr'. apply numeral_nonempty in H, H'. destruct H as [_ H], H' as [_ H'].
  destruct (prefixes _ _ _ _ E) as [(c & u & -> & ->)|[(c & u & -> & ->)|[-> ->]]].
  - now apply numeral_app in H'.
  - now apply numeral_app in H.
  - split; [congruence|reflexivity].
Qed.
Lemma split_at_more x s r : forall a b, split_at x s = Some (a, b) -> split_at x (s ++ r) = Some (a, b ++ r).
Proof.
  induction s as [|c s IH]; intros a b; cbn [split_at app]; [discriminate|]. destruct (Ascii.eqb c x); [intros E; now inversion E|].
  destruct (split_at x s) as [[a' b']|]; [|discriminate]. intros E. inversion E; subst. now rewrite (IH _ _ eq_refl).
Qed.
Lemma literal_more : forall k k' s r t rest, literal_body k s = Some (t, rest) -> (k <= k')%nat -> literal_body k' (s ++ r) = Some (t, rest ++ r).
Proof.
  induction k as [|k IH]; intros k' s r t rest; [discriminate|]. destruct k' as [|k']; [lia|]. intros E L. apply le_S_n in L.
  destruct s as [|c s]; [discriminate|]. cbn [literal_body app] in *. destruct (Ascii.eqb c """"); [now inversion E|].
  destruct (Ascii.eqb c "\").
  2: { destruct (literal_body k s) as [[t' rest']|] eqn:E'; [|discriminate]. inversion E; subst. now rewrite (IH k' _ r _ _ E' L). }
  destruct s as [|e s]; [discriminate|].
  assert (Hplain : forall s2, match unescape e, literal_body k s2 with Some x, Some (t, rest) => Some (x :: t, rest) | _, _ => None end = Some (t, rest) ->
    match unescape e, literal_body k' (s2 ++ r) with Some x, Some (t, rest) => Some (x :: t, rest) | _, _ => None end = Some (t, rest ++ r)).
  { intros s2. destruct (unescape e); [|discriminate]. destruct (literal_body k s2) as [[t' rest']|] eqn:E'; [|discriminate].
    intros E2. inversion E2; subst. now rewrite (IH k' _ r _ _ E' L). }
  assert (Hu : forall s2, match split_at "}" s2 with
            | Some (h, s3) => match numeral 16 h, literal_body k s3 with Some n, Some (t, rest) => Some (utf8 n ++ t, rest) | _, _ => None end
            | None => None end = Some (t, rest) ->
            match split_at "}" (s2 ++ r) with
            | Some (h, s3) => match numeral 16 h, literal_body k' s3 with Some n, Some (t, rest) => Some (utf8 n ++ t, rest) | _, _ => None end
            | None => None end = Some (t, rest ++ r)).
  { intros s2. destruct (split_at "}" s2) as [[h s3]|] eqn:Es; [|discriminate]. rewrite (split_at_more _ _ r _ _ Es).
    destruct (numeral 16 h); [|discriminate]. destruct (literal_body k s3) as [[t' rest']|] eqn:E'; [|discriminate].
    intros E2. inversion E2; subst. now rewrite (IH k' _ r _ _ E' L). }
  cbn [app]. destruct (ascii_dec e "u") as [->|Ne].
  - destruct s as [|f s]; [cbn in E; discriminate|]. destruct (ascii_dec f "{") as [->|Nf].
    + cbn [app] in *. now apply Hu.
    + exfalso. revert E. clear - Nf. destruct f as [[] [] [] [] [] [] [] []]; try discriminate. now contradict Nf.
  - revert E. specialize (Hplain s). destruct e as [[] [] [] [] [] [] [] []]; first [exact Hplain | now contradict Ne].
Qed.
Lemma quotes_read s q r : quotes s q -> literal (q ++ r) = Some (s, r).
Proof.
  unfold quotes, literal. destruct q as [|c q]; [discriminate|]. cbn [app]. destruct (Ascii.eqb c """"); [|discriminate]. intros E.
  apply (literal_more _ (List.length (q ++ r)) _ r) in E; [exact E|]. rewrite app_length. lia.
Qed.
Lemma quotes_det s s' q q' r r' : quotes s q -> quotes s' q' -> q ++ r = q' ++ r' -> s = s' /\ r = r'.
Proof. intros H H' E. apply (quotes_read _ _ r) in H. apply (quotes_read _ _ r') in H'. rewrite E, H' in H. now inversion H. Qed.

(** Text that is read back from what it starts with. *)
Lemma tail_eq {X} (c : X) a b : c :: a = c :: b -> a = b.
Proof. congruence. Qed.
Ltac spell := cbn [fill_in lit list_ascii_of_string app] in *.
Ltac eat E := repeat (apply tail_eq in E).
Ltac fits := repeat match goal with
  | H : reading_like _ _ _ |- _ => let xs := fresh "xs" in let F := fresh "F" in destruct H as (xs & F & ->)
  | F : Forall2 _ [] _ |- _ => inversion F; clear F; subst
  | F : Forall2 _ (_ :: _) _ |- _ => inversion F; clear F; subst
  end; cbn beta in *; spell.

Ltac same := subst; split; [reflexivity|try assumption; try reflexivity].
Lemma int_wording_det e e' t t' r r' : int_wording e t -> int_wording e' t' -> t ++ r = t' ++ r' -> e = e' /\ r = r'.
Proof.
  unfold int_wording. intros H H' E. destruct e, e'; fits; try discriminate E; eat E; now split.
Qed.
Lemma int_name_det e e' t t' r r' : int_name e t -> int_name e' t' -> t ++ r = t' ++ r' -> e = e' /\ r = r'.
Proof.
  unfold int_name. intros H H' E. destruct e, e'; fits; try discriminate E; eat E; now split.
Qed.
Ltac reads E :=
  repeat first
    [ discriminate E
    | progress (repeat rewrite <- app_assoc in E; cbn [app] in E)
    | progress (eat E)
    | match type of E with
      | ?t ++ _ = ?t' ++ _ =>
          match goal with
          | H : shows _ t, H' : shows _ t' |- _ => destruct (shows_det _ _ _ _ _ _ H H' E) as [? E']; [reflexivity || exact I|reflexivity || exact I|]; clear E; rename E' into E
          | H : count_of _ t, H' : count_of _ t' |- _ => let E' := fresh "E" in destruct (shows_det _ _ _ _ _ _ H H' E) as [? E']; [reflexivity || exact I|reflexivity || exact I|]; clear E; rename E' into E
          | H : quotes _ t, H' : quotes _ t' |- _ => let E' := fresh "E" in destruct (quotes_det _ _ _ _ _ _ H H' E) as [? E']; clear E; rename E' into E
          | H : int_wording _ t, H' : int_wording _ t' |- _ => let E' := fresh "E" in destruct (int_wording_det _ _ _ _ _ _ H H' E) as [? E']; clear E; rename E' into E
          | H : int_name _ t, H' : int_name _ t' |- _ => let E' := fresh "E" in destruct (int_name_det _ _ _ _ _ _ H H' E) as [? E']; clear E; rename E' into E
          end
      end ].
Lemma of_nat_eq a b : N.of_nat a = N.of_nat b -> a = b.
Proof. lia. Qed.
Ltac nats := repeat match goal with H : N.of_nat _ = N.of_nat _ |- _ => apply of_nat_eq in H end.

Lemma addr_wording_det e e' t t' : addr_wording e t -> addr_wording e' t' -> t = t' -> e = e'.
Proof.
  intros H H' E. rewrite <- (app_nil_r t), <- (app_nil_r t') in E.
  destruct e, e'; cbn [addr_wording] in *; fits; try discriminate E; reads E; nats; subst; reflexivity.
Qed.
Lemma addr_name_det e e' t t' : addr_name e t -> addr_name e' t' -> t = t' -> e = e'.
Proof.
  intros H H' E. rewrite <- (app_nil_r t), <- (app_nil_r t') in E.
  destruct e, e'; cbn [addr_name] in *; fits; try discriminate E; reads E; nats; subst; reflexivity.
Qed.

Lemma spec_wording_det e e' t t' : spec_wording e t -> spec_wording e' t' -> t = t' -> e = e'.
Proof.
  intros H H' E. rewrite <- (app_nil_r t), <- (app_nil_r t') in E.
  destruct e, e'; cbn [spec_wording] in *; fits; try discriminate E; reads E; subst; try reflexivity;
    f_equal; rewrite ?app_nil_r in E; first [eapply addr_name_det; eassumption | idtac].
Qed.
Ltac word_at_end E :=
  rewrite ?app_nil_r in E;
  match type of E with ?t = ?t' =>
    match goal with
    | H : addr_wording _ t, H' : addr_wording _ t' |- _ => pose proof (addr_wording_det _ _ _ _ H H' E)
    | H : spec_wording _ t, H' : spec_wording _ t' |- _ => pose proof (spec_wording_det _ _ _ _ H H' E)
    end
  end.

(** What a line starts with tells the kind of message. *)
Definition kind (m : errmsg) : nat :=
  match m with
  | MsgUsage => 0 | MsgFirstAddr _ => 1 | MsgSecondAddr _ => 2 | MsgVersions => 3 | MsgMixing => 4 | MsgParsing _ => 5
  | MsgHostCount _ _ => 6 | MsgHostCountNegative => 7 | MsgSplitNetspec _ _ => 8 | MsgNetspec _ _ => 9 | MsgSubnet _ _ => 10
  | MsgCidrMax _ _ => 11 | MsgMask6ForNet4 => 12 | MsgMask4ForNet6 => 13 | MsgNetwork _ _ => 14
  | MsgError (Unrecognized _) => 15 | MsgError (AddressError _) => 16 | MsgError (MaskError _) => 17
  | MsgError (CidrParseError _) => 18 | MsgError (CidrRange _ _) => 19
  end.
Definition openings : list str :=
  [ lit "Usage"; lit "failed to parse first"; lit "failed to parse second"; lit "both"; lit "mixing"; lit "parsing"; lit "failed to parse host";
    lit "host"; lit "failed to parse network specif"; lit "failed to parse network spec "; lit "failed to parse subnet"; lit "CIDR value";
    lit "cannot resize an IPv4"; lit "cannot resize an IPv6"; lit "failed to parse network """; lit "unrec"; lit "failed to parse address"; lit "failed to parse mask";
    lit "failed to parse CIDR"; lit "CIDR prefix" ].
Definition opening (k : nat) : str := nth k openings [].
Lemma quotes_head s q : quotes s q -> exists q', q = """"%char :: q'.
Proof.
  unfold quotes, literal. destruct q as [|c q]; [discriminate|]. destruct (Ascii.eqb c """") eqn:E; [|discriminate]. apply Ascii.eqb_eq in E. subst. eauto.
Qed.
Lemma wording_opens m t : wording m t -> starts_with (opening (kind m)) t = true.
Proof.
  intros H. destruct m; try destruct e; cbn [wording spec_wording] in H; try contradiction; destruct H as (xs & F & ->);
    try (inversion F as [|? x ? xs' Hx F']; subst); spell; try reflexivity.
  all: apply quotes_head in Hx; destruct Hx as (q' & ->); reflexivity.
Qed.
Lemma starts_both p : forall q t, starts_with p t = true -> starts_with q t = true -> starts_with p q = true \/ starts_with q p = true.
Proof.
  induction p as [|c p IH]; intros q t H H'; [now left|]. destruct q as [|d q]; [now right|]. destruct t as [|x t]; [discriminate|].
  cbn [starts_with] in *. apply andb_prop in H, H'. destruct H as [H1 H2], H' as [H1' H2']. apply Ascii.eqb_eq in H1, H1'. subst.
  rewrite Ascii.eqb_refl. cbn [andb]. now apply (IH q t).
Qed.
Lemma openings_apart k k' : (k < 20)%nat -> (k' < 20)%nat -> starts_with (opening k) (opening k') = true -> k = k'.
Proof.
  intros L L' H. assert (C : forallb (fun k => forallb (fun k' => implb (starts_with (opening k) (opening k')) (Nat.eqb k k')) (seq 0 20)) (seq 0 20) = true) by (vm_compute; reflexivity).
  rewrite forallb_forall in C. specialize (C k). rewrite forallb_forall in C. rewrite in_seq in C. specialize (C ltac:(lia) k'). rewrite in_seq in C.
  specialize (C ltac:(lia)). rewrite H in C. now apply Nat.eqb_eq.
Qed.
Lemma kind_bound m : (kind m < 20)%nat.
Proof. destruct m; try destruct e; cbn [kind]; lia. Qed.
Lemma wording_det m m' t : wording m t -> wording m' t -> m = m'.
Proof.
  intros H H'. assert (K : kind m = kind m').
  { destruct (starts_both _ _ _ (wording_opens _ _ H) (wording_opens _ _ H')) as [S|S]; apply openings_apart in S; auto using kind_bound. }
  remember t as t' eqn:E in H'. symmetry in E. rewrite <- (app_nil_r t), <- (app_nil_r t') in E.
  assert (He : forall e e', m = MsgError e -> m' = MsgError e' -> m = m').
  { intros e e' -> ->. rewrite !app_nil_r in E. f_equal. exact (spec_wording_det _ _ _ _ H H' E). }
  destruct m, m'; try discriminate K; try exact (He _ _ eq_refl eq_refl); try (destruct e; discriminate K); try (destruct e0; discriminate K);
    clear He K; cbn [wording] in *; try contradiction; fits; reads E; try (word_at_end E); subst; try reflexivity.
  destruct (max =? 32), (max0 =? 32); reads E; subst; reflexivity.
Qed.

Lemma usage_line m : ~ wording m (lit "Usage: ripcalc IPADDRESS/SUBNET...").
Proof.
  intros H. apply wording_opens in H as Ho. assert (K : kind m = kind MsgUsage).
  { assert (Hu : starts_with (opening (kind MsgUsage)) (lit "Usage: ripcalc IPADDRESS/SUBNET...") = true) by reflexivity.
    destruct (starts_both _ _ _ Ho Hu) as [S|S]; apply openings_apart in S; auto using kind_bound. }
  destruct m; try discriminate K; [exact H|]. now destruct e.
Qed.

Lemma c73_distinct : forall (ms ms' : list errmsg) (ls : list str),
  told ms ls -> told ms' ls -> ms = ms'.
Proof.
  intros ms ms' ls H. revert ms'. induction H as [|ms ls H IH|m ms l ls Hw H IH]; intros ms' H'.
  - now inversion H'.
  - remember (usage_text ++ ls) as us eqn:E. destruct H' as [|ms' ls' H'|m' ms' l' ls' Hw' H'].
    + discriminate E.
    + apply app_inv_head in E. subst. f_equal. now apply IH.
    + unfold usage_text in E. apply (f_equal (hd [])) in E. cbn [hd app] in E. subst l'. now apply usage_line in Hw'.
  - remember (l :: ls) as us eqn:E. destruct H' as [|ms' ls' H'|m' ms' l' ls' Hw' H'].
    + discriminate E.
    + unfold usage_text in E. apply (f_equal (hd [])) in E. cbn [hd app] in E. subst l. now apply usage_line in Hw.
    + inversion E; subst. f_equal; [eapply wording_det; eassumption|]. now apply IH.
Qed.
Lemma c73_distinct_ex :
  ~ told [MsgFirstAddr (EmptyChunk 1)] [lit "failed to parse first address: IP address chunk with index 2 is empty"].
Proof.
  intros H. enough (E : [MsgFirstAddr (EmptyChunk 1)] = [MsgFirstAddr (EmptyChunk 2)]) by discriminate E.
  eapply c73_distinct; [exact H|]. apply told_line; [|constructor]. exists [@addr_error_text no_unicode (EmptyChunk 2)]. split; [|reflexivity].
  constructor; [|constructor]. exact (@addr_text_worded no_unicode (EmptyChunk 2) (Forall_nil _)).
Qed.

(** ** Lines can be told apart *)
Definition one_line (l : str) : Prop := ~ In "010"%char l.
Lemma lines_inj ls : forall ls', Forall one_line ls -> Forall one_line ls' -> lines ls = lines ls' -> ls = ls'.
Proof.
  assert (A : forall l l' r r', one_line l -> one_line l' -> l ++ newline ++ r = l' ++ newline ++ r' -> l = l' /\ r = r').
  { intros l l' r r' H H' E. destruct (prefixes _ _ _ _ E) as [(c & u & -> & E')|[(c & u & -> & E')|[-> E']]].
    - inversion E'; subst. destruct H'. apply in_or_app. right. now left.
    - inversion E'; subst. destruct H. apply in_or_app. right. now left.
    - split; [reflexivity|]. now inversion E'. }
  induction ls as [|l ls IH]; intros ls' H H' E; inversion H; subst; destruct ls' as [|l' ls']; [reflexivity| | |]; cbn [lines flat_map] in E.
  - now destruct l'.
  - now destruct l.
  - inversion H'; subst. rewrite <- !app_assoc in E. apply A in E; try assumption. destruct E as [-> E]. f_equal. now apply IH.
Qed.
Lemma tidy_one_line l : tidy l -> one_line l.
Proof.
  intros (ns & Hn & ->) I. apply in_flat_map in I. destruct I as (n & Hin & Hc). rewrite Forall_forall in Hn. destruct (Hn _ Hin) as [Hs Ht].
  destruct (utf8_bytes _ _ Hs Hc) as [[L E]|L]; [|now apply L].
  rewrite utf8_one in E by exact L. inversion E as [E']. apply (f_equal N_of_ascii) in E'. rewrite N_ascii_embedding in E' by lia. subst n. destruct Ht. left. reflexivity.
Qed.
Lemma c73_told_apart : forall (U U' : Unicode) (R R' : Rust) (T T' : Terminal) (args args' : list str),
  Forall unicode args -> Forall unicode args' ->
  on_stderr (@main U R T args) = on_stderr (@main U' R' T' args') ->
  problems (fst (@do_main R T args)) = problems (fst (@do_main R' T' args')).
Proof.
  intros U U' R R' T T' args args' Ha Ha' E.
  destruct (worded U R T args Ha) as (ls & Ht & El & Hl). destruct (worded U' R' T' args' Ha') as (ls' & Ht' & El' & Hl').
  rewrite El, El' in E. apply lines_inj in E; [|eapply Forall_impl; [exact tidy_one_line|assumption]|eapply Forall_impl; [exact tidy_one_line|assumption]].
  subst ls'. exact (c73_distinct _ _ _ Ht Ht').
Qed.
