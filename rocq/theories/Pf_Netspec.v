(** * Pf_Netspec: proofs for P_Netspec *)
From Verif Require Import RustBase Addr Net Parse Spec SpecText Demo Bits Laws NetFacts SetFacts Family
  TextFacts RegexFacts Pf_Addr Pf_Net Pf_Text.
From Coq Require Import ZifyBool ZifyNat ZifyN.
Ltac Zify.zify_post_hook ::= idtac.

(** ** Reading addresses *)
Definition rd (F : family) : str -> res (result (addr F) addr_error) :=
  match F as F return str -> res (result (addr F) addr_error) with
  | V4 => fun s => Ret (v4_from_str s)
  | V6 => v6_from_str
  end.

Lemma rd_spec F s a : rd F s = Ret (ROk a) <-> reads F s a.
Proof.
  destruct F; cbn [rd reads].
  - rewrite <- c03_accepts. split; intros E; [now inversion E|now rewrite E].
  - apply c05_accepts.
Qed.

Lemma rd_returns F s : exists r, rd F s = Ret r.
Proof. destruct F; cbn [rd]; [eauto|apply c05_returns]. Qed.

Lemma rd_cases F s : (exists a, rd F s = Ret (ROk a) /\ reads F s a) \/
  (exists e, rd F s = Ret (RErr e) /\ forall a, ~ reads F s a).
Proof.
  destruct (rd_returns F s) as ([a|e] & E); [left|right].
  - exists a. split; [exact E|now apply rd_spec].
  - exists e. split; [exact E|]. intros a K. apply rd_spec in K. congruence.
Qed.

Lemma reads_unique F s a b : reads F s a -> reads F s b -> a = b.
Proof. intros H K. apply rd_spec in H, K. congruence. Qed.

Lemma reads_valid F s a : reads F s a -> valid a.
Proof.
  destruct F; cbn [reads].
  - now intros [H _].
  - intros (gs & (H & _) & _). exact H.
Qed.

(** ** Decimal numbers *)
Lemma digit10 c : (exists d, digit_below 10 c = Some d) <-> In c (lit "0123456789").
Proof.
  split.
  - intros (d & E). destruct c as [b0 b1 b2 b3 b4 b5 b6 b7];
      destruct b0, b1, b2, b3, b4, b5, b6, b7; vm_compute in E |- *; (discriminate || tauto).
  - intros I. cbn in I. repeat (destruct I as [<-|I]; [vm_compute; eauto|]). contradiction.
Qed.

Lemma numeral_decimal s x : numeral 10 s = Some x -> decimal s.
Proof.
  intros H. destruct s as [|c s]; [discriminate|]. split; [discriminate|]. unfold numeral in H.
  revert H. generalize 0. generalize (c :: s). clear. induction l as [|c l IH]; intros acc E; [constructor|].
  cbn [numeral_from] in E. destruct (digit_below 10 c) as [d|] eqn:Ed; [|discriminate].
  constructor; [|eauto]. apply digit10. eauto.
Qed.

Lemma decimal_numeral s : decimal s -> exists x, numeral 10 s = Some x.
Proof.
  intros [Hne F]. destruct s as [|c s]; [congruence|]. unfold numeral. generalize 0. clear Hne.
  induction F as [|x l Hx _ IH]; intros acc; [cbn; eauto|]. cbn [numeral_from].
  apply digit10 in Hx. destruct Hx as (d & ->). apply IH.
Qed.

Lemma parse_decimal s x max : numeral 10 s = Some x ->
  parse_uint 10 max s = if x <=? max then ROk x else RErr IE_PosOverflow.
Proof.
  intros H. pose proof (numeral_decimal _ _ H) as D. destruct s as [|c s]; [discriminate|].
  assert (parse_uint 10 max (c :: s) = parse_digits 10 max 0 (c :: s)) as ->.
  { unfold parse_uint. destruct D as [_ D]. apply Forall_inv in D.
    destruct (Ascii.eqb_spec c "+") as [->|]; [exfalso; revert D; notin|].
    destruct (Ascii.eqb_spec c "-") as [->|]; [exfalso; revert D; notin|]. reflexivity. }
  assert (exists r, parse_digits 10 max 0 (c :: s) = r /\ forall e, r = RErr e -> e = IE_PosOverflow) as (r & E & He).
  { eexists. split; [reflexivity|]. destruct D as [_ D]. revert D. generalize (c :: s). generalize 0.
    intros n l D. revert n. induction D as [|y l Hy _ IH]; intros n e; cbn [parse_digits]; [discriminate|].
    apply digit10 in Hy. destruct Hy as (d & Ed). rewrite to_digit_below, Ed by (now left).
    destruct (max <? n * 10); [now inversion 1|]. destruct (max <? n * 10 + d); [now inversion 1|]. apply IH. }
  destruct (N.leb_spec x max) as [L|L].
  - apply parse_digits_spec; [now left|lia|now split].
  - destruct r as [y|e]; [|now rewrite E, (He e)]. exfalso.
    apply parse_digits_spec in E; [|now left|lia]. unfold numeral in H. destruct E as [E Ly].
    assert (x = y) by congruence. lia.
Qed.

(** ** The four forms *)
Section Forms.
  Context (R : Rust).

  Definition mask_result (F : family) (A : str) (w : bool) (M : str) : res (result network_spec netspec_error) :=
    ra <- rd F A ;;
    match ra with
    | RErr e => Ret (RErr (AddressError e))
    | ROk a =>
        rm <- rd F M ;;
        match rm with
        | RErr e => Ret (RErr (MaskError e))
        | ROk m => Ret (ROk (spec_of F a (new_with_mask a (if w then bitwise_negate m else m))))
        end
    end.

  Definition cidr_result (F : family) (A : str) (w : bool) (M : str) : res (result network_spec netspec_error) :=
    ra <- rd F A ;;
    match ra with
    | RErr e => Ret (RErr (AddressError e))
    | ROk a =>
        match parse_uint 10 usize_max M with
        | RErr e => Ret (RErr (CidrParseError e))
        | ROk p =>
            if width F <? p then Ret (RErr (CidrRange p (width F)))
            else
              p <- (if w then usize_sub (width F) p else Ret p) ;;
              n <- new_with_prefix a p ;;
              Ret (ROk (spec_of F a n))
        end
    end.

  Lemma cap_addr A w n M : cap_name "addr" (caps_of A w n M) = Some A.
  Proof. reflexivity. Qed.
  Lemma cap_wild A w n M : n <> "wildcard"%string -> is_some (cap_name "wildcard" (caps_of A w n M)) = w.
  Proof.
    intros Hn. unfold caps_of. cbn [cap_name String.eqb Ascii.eqb Bool.eqb]. destruct w; [reflexivity|].
    cbn [List.app cap_name]. destruct (String.eqb_spec "wildcard" n); [congruence|reflexivity].
  Qed.
  Lemma cap_last A w n M : n <> "wildcard"%string -> n <> "addr"%string -> cap_name n (caps_of A w n M) = Some M.
  Proof.
    intros Hw Ha. unfold caps_of. cbn [cap_name].
    destruct (String.eqb_spec n "addr"); [congruence|]. destruct w; cbn [List.app cap_name].
    - destruct (String.eqb_spec n "wildcard"); [congruence|]. now rewrite String.eqb_refl.
    - now rewrite String.eqb_refl.
  Qed.

  Definition shaped (F : family) (s : str) : Prop :=
    exists A w M, s = spec_text A w M /\ addr_shape F A /\ (mask_shape F M \/ decimal M).

  Lemma cap4m s : (forall A w M, s = spec_text A w M -> dotted A -> dotted M ->
      captures IPV4_WITH_SUBNET_REGEX s = Some (caps_of A w "mask" M)) /\
    (captures IPV4_WITH_SUBNET_REGEX s = None \/ exists A w M, s = spec_text A w M /\ dotted A /\ dotted M).
  Proof.
    apply (captures_spec R_IPV4 R_IPV4); [apply m_ipv4|apply m_ipv4|apply (addr_shape_noslash V4)|apply (mask_shape_nominus V4)].
  Qed.
  Lemma cap4c s : (forall A w M, s = spec_text A w M -> dotted A -> decimal M ->
      captures IPV4_WITH_CIDR_REGEX s = Some (caps_of A w "cidr" M)) /\
    (captures IPV4_WITH_CIDR_REGEX s = None \/ exists A w M, s = spec_text A w M /\ dotted A /\ decimal M).
  Proof.
    apply (captures_spec R_IPV4 (RPlus cls_digit)); [apply m_ipv4|apply m_digits|apply (addr_shape_noslash V4)|apply decimal_nominus].
  Qed.
  Lemma cap6m s : (forall A w M, s = spec_text A w M -> addr_shape V6 A -> mask_shape V6 M ->
      captures IPV6_WITH_SUBNET_REGEX s = Some (caps_of A w "mask" M)) /\
    (captures IPV6_WITH_SUBNET_REGEX s = None \/ exists A w M, s = spec_text A w M /\ addr_shape V6 A /\ mask_shape V6 M).
  Proof.
    apply (captures_spec (RPlus cls_v6) (RSeq (RStar cls_v6) (RSeq (RChar (cls_one ":")) (RStar cls_v6))));
      [apply m_v6|apply m_mask6|apply (addr_shape_noslash V6)|apply (mask_shape_nominus V6)].
  Qed.
  Lemma cap6c s : (forall A w M, s = spec_text A w M -> addr_shape V6 A -> decimal M ->
      captures IPV6_WITH_CIDR_REGEX s = Some (caps_of A w "cidr" M)) /\
    (captures IPV6_WITH_CIDR_REGEX s = None \/ exists A w M, s = spec_text A w M /\ addr_shape V6 A /\ decimal M).
  Proof.
    apply (captures_spec (RPlus cls_v6) (RPlus cls_digit)); [apply m_v6|apply m_digits|apply (addr_shape_noslash V6)|apply decimal_nominus].
  Qed.

  Lemma shape_nominus F M : mask_shape F M \/ decimal M -> nominus M.
  Proof. intros [H|H]; [now apply (mask_shape_nominus F)|now apply decimal_nominus]. Qed.

  (** The parts and their shapes are determined by the text. *)
  Lemma shape_unique F G A w M B x N :
    spec_text A w M = spec_text B x N -> addr_shape F A -> addr_shape G B ->
    mask_shape F M \/ decimal M -> mask_shape G N \/ decimal N -> F = G /\ A = B /\ w = x /\ M = N.
  Proof.
    intros E HA HB HM HN. apply spec_text_inj in E;
      eauto using addr_shape_noslash, shape_nominus. destruct E as (-> & -> & ->).
    split; [|auto]. destruct F, G; try reflexivity; exfalso; eapply addr_shape_excl; eauto.
  Qed.

  Lemma netspec_mask F A w M : addr_shape F A -> mask_shape F M ->
    parse_netspec (spec_text A w M) = mask_result F A w M.
  Proof.
    intros HA HM. set (s := spec_text A w M).
    assert (forall G B x N, s = spec_text B x N -> addr_shape G B -> mask_shape G N \/ decimal N ->
              F = G /\ A = B /\ w = x /\ M = N) as U by (intros; eapply shape_unique; eauto).
    unfold parse_netspec. destruct F.
    - destruct (cap4m s) as [C _]. rewrite (C A w M eq_refl HA HM).
      rewrite cap_addr, cap_wild, cap_last by discriminate. cbn [unwrap bind mask_result rd].
      destruct (v4_from_str A) as [a|e]; [|reflexivity]. cbn [bind].
      destruct (v4_from_str M) as [m|e]; reflexivity.
    - destruct (cap4m s) as [_ [->|(B & x & N & E & HB & HN)]]; [|destruct (U V4 B x N E HB (or_introl HN)); discriminate].
      destruct (cap4c s) as [_ [->|(B & x & N & E & HB & HN)]]; [|destruct (U V4 B x N E HB (or_intror HN)); discriminate].
      destruct (cap6m s) as [C _]. rewrite (C A w M eq_refl HA HM).
      rewrite cap_addr, cap_wild, cap_last by discriminate. reflexivity.
  Qed.

  Lemma netspec_cidr F A w M : addr_shape F A -> decimal M ->
    parse_netspec (spec_text A w M) = cidr_result F A w M.
  Proof.
    intros HA HM. set (s := spec_text A w M).
    assert (forall G B x N, s = spec_text B x N -> addr_shape G B -> mask_shape G N \/ decimal N ->
              F = G /\ A = B /\ w = x /\ M = N) as U by (intros; eapply shape_unique; eauto).
    unfold parse_netspec. destruct F.
    - destruct (cap4m s) as [_ [->|(B & x & N & E & HB & HN)]].
      2: { exfalso. destruct (U V4 B x N E HB (or_introl HN)) as (_ & _ & _ & ->). now apply (mask_shape_decimal V4 N). }
      destruct (cap4c s) as [C _]. rewrite (C A w M eq_refl HA HM).
      rewrite cap_addr, cap_wild, cap_last by discriminate. reflexivity.
    - destruct (cap4m s) as [_ [->|(B & x & N & E & HB & HN)]]; [|destruct (U V4 B x N E HB (or_introl HN)); discriminate].
      destruct (cap4c s) as [_ [->|(B & x & N & E & HB & HN)]]; [|destruct (U V4 B x N E HB (or_intror HN)); discriminate].
      destruct (cap6m s) as [_ [->|(B & x & N & E & HB & HN)]].
      2: { exfalso. destruct (U V6 B x N E HB (or_introl HN)) as (_ & _ & _ & ->). now apply (mask_shape_decimal V6 N). }
      destruct (cap6c s) as [C _]. rewrite (C A w M eq_refl HA HM).
      rewrite cap_addr, cap_wild, cap_last by discriminate. reflexivity.
  Qed.

  Lemma netspec_cases s :
    (exists F A w M, s = spec_text A w M /\ addr_shape F A /\ mask_shape F M /\ parse_netspec s = mask_result F A w M) \/
    (exists F A w M, s = spec_text A w M /\ addr_shape F A /\ decimal M /\ parse_netspec s = cidr_result F A w M) \/
    ((forall F, ~ shaped F s) /\ parse_netspec s = Ret (RErr (Unrecognized s))).
  Proof.
    destruct (captures IPV4_WITH_SUBNET_REGEX s) as [c|] eqn:E1.
    { left. destruct (cap4m s) as [_ [E|(A & w & M & -> & HA & HM)]]; [congruence|].
      exists V4, A, w, M. repeat (split; [easy|]). now apply (netspec_mask V4). }
    destruct (captures IPV4_WITH_CIDR_REGEX s) as [c|] eqn:E2.
    { right. left. destruct (cap4c s) as [_ [E|(A & w & M & -> & HA & HM)]]; [congruence|].
      exists V4, A, w, M. repeat (split; [easy|]). now apply (netspec_cidr V4). }
    destruct (captures IPV6_WITH_SUBNET_REGEX s) as [c|] eqn:E3.
    { left. destruct (cap6m s) as [_ [E|(A & w & M & -> & HA & HM)]]; [congruence|].
      exists V6, A, w, M. repeat (split; [easy|]). now apply (netspec_mask V6). }
    destruct (captures IPV6_WITH_CIDR_REGEX s) as [c|] eqn:E4.
    { right. left. destruct (cap6c s) as [_ [E|(A & w & M & -> & HA & HM)]]; [congruence|].
      exists V6, A, w, M. repeat (split; [easy|]). now apply (netspec_cidr V6). }
    right. right. split.
    - intros F (A & w & M & Es & HA & HM).
      destruct F, HM as [HM|HM];
        [destruct (cap4m s) as [C _]|destruct (cap4c s) as [C _]|destruct (cap6m s) as [C _]|destruct (cap6c s) as [C _]];
        specialize (C A w M Es HA HM); congruence.
    - unfold parse_netspec. now rewrite E1, E2, E3, E4.
  Qed.
End Forms.

(** ** Networks from parts *)
Lemma wf_high {F : family} (a : addr F) i : valid a -> width F <= i -> N.testbit (value a) i = false.
Proof. intros Ha Hi. apply (testbit_high _ (width F)); [now apply (@value_lt debug_env)|assumption]. Qed.

Lemma negate_value (R : Rust) (F : family) (m : addr F) : valid m ->
  valid (bitwise_negate m) /\ value (bitwise_negate m) = 2 ^ width F - 1 - value m.
Proof.
  intros Hm. destruct (c10_negate R F m Hm) as (Hv & Hb). split; [exact Hv|].
  assert (value m + value (bitwise_negate m) = 2 ^ width F - 1) as E; [|lia].
  rewrite N.add_nocarry_lxor.
  - rewrite <- N.pred_sub, <- N.ones_equiv. apply N.bits_inj. intros i. rewrite N.lxor_spec.
    destruct (N.lt_ge_cases i (width F)) as [Hi|Hi].
    + rewrite Hb, N.ones_spec_low by assumption. now destruct (N.testbit (value m) i).
    + rewrite N.ones_spec_high, !wf_high by assumption. reflexivity.
  - apply N.bits_inj. intros i. rewrite N.land_spec, N.bits_0.
    destruct (N.lt_ge_cases i (width F)) as [Hi|Hi].
    + rewrite Hb by assumption. now destruct (N.testbit (value m) i).
    + now rewrite wf_high by assumption.
Qed.

Lemma network_of_unique F (n n' : net F) a k : network_of n a k -> network_of n' a k -> n = n'.
Proof.
  intros (W & E & M) (W' & E' & M'). apply (c21_extensionality debug_env); try assumption.
  intros x Hx. unfold member in *. rewrite E, E' in *.
  split; intros H i Hi Hb; rewrite (H i Hi Hb).
  - rewrite <- (M i Hi Hb). now apply M'.
  - rewrite <- (M' i Hi Hb). now apply M.
Qed.

Lemma network_of_mask (R : Rust) F (a m : addr F) : valid a -> valid m -> network_of (new_with_mask a m) a (value m).
Proof.
  intros Ha Hm. destruct (c17_with_mask R F a m Ha Hm) as (W & M & E & _). split; [exact W|]. split; [|exact M]. cbv zeta in E. exact (f_equal value E).
Qed.

Lemma network_of_prefix (R : Rust) F (a : addr F) p : valid a -> p <= width F ->
  exists n, new_with_prefix a p = Ret n /\ network_of n a (prefix_mask F p) /\ is_cidr n p.
Proof.
  intros Ha Hp. destruct (c17_with_prefix R F a p Ha Hp) as (n & E & C & M & Em & _). exists n.
  split; [exact E|]. split; [|exact C]. split; [apply C|]. split; assumption.
Qed.

Lemma describes_mask (R : Rust) F (w : bool) M (m : addr F) : mask_shape F M -> reads F M m ->
  valid (if w then bitwise_negate m else m) /\ describes F w M (value (if w then bitwise_negate m else m)).
Proof.
  intros HM Hr. pose proof (reads_valid F _ _ Hr) as Hv. destruct (negate_value R F m Hv) as (Hn & En).
  split; [now destruct w|]. left. exists m. split; [exact HM|]. split; [exact Hr|]. now destruct w.
Qed.

(** Results of the four forms. *)
Lemma mask_result_spec (R : Rust) F A w M : mask_shape F M ->
  (exists e, mask_result R F A w M = Ret (RErr (AddressError e)) /\ forall a, ~ reads F A a) \/
  (exists a e, reads F A a /\ mask_result R F A w M = Ret (RErr (MaskError e)) /\ forall m, ~ reads F M m) \/
  (exists a m n mask, reads F A a /\ reads F M m /\ mask_result R F A w M = Ret (ROk (spec_of F a n)) /\
     describes F w M mask /\ network_of n a mask).
Proof.
  intros HM. unfold mask_result.
  destruct (rd_cases F A) as [(a & -> & Ha)|(e & -> & Ha)]; cbn [bind]; [|left; eauto]. right.
  destruct (rd_cases F M) as [(m & -> & Hm)|(e & -> & Hm)]; cbn [bind]; [|left; eauto 6]. right.
  destruct (describes_mask R F w M m HM Hm) as [Hv Hd].
  exists a, m, (new_with_mask a (if w then bitwise_negate m else m)), (value (if w then bitwise_negate m else m)).
  repeat (split; [easy|]). apply network_of_mask; [now apply reads_valid in Ha|exact Hv].
Qed.

Lemma width_usize `{R : Rust} F : width F < 2 ^ usize_bits.
Proof.
  apply N.lt_le_trans with (2 ^ 16); [destruct F; reflexivity|]. apply N.pow_le_mono_r; [discriminate|apply usize_wide].
Qed.

Lemma cidr_result_spec (R : Rust) F A w M x : numeral 10 M = Some x ->
  (exists e, cidr_result R F A w M = Ret (RErr (AddressError e)) /\ forall a, ~ reads F A a) \/
  (exists a, reads F A a /\ 2 ^ usize_bits <= x /\ cidr_result R F A w M = Ret (RErr (CidrParseError IE_PosOverflow))) \/
  (exists a, reads F A a /\ width F < x < 2 ^ usize_bits /\ cidr_result R F A w M = Ret (RErr (CidrRange x (width F)))) \/
  (exists a n mask, reads F A a /\ x <= width F /\ cidr_result R F A w M = Ret (ROk (spec_of F a n)) /\
     describes F w M mask /\ network_of n a mask).
Proof.
  intros Hx. unfold cidr_result.
  destruct (rd_cases F A) as [(a & -> & Ha)|(e & -> & Ha)]; cbn [bind]; [|left; eauto]. right.
  rewrite (parse_decimal M x usize_max Hx). pose proof (width_usize F) as Hw.
  unfold usize_max. set (top := 2 ^ usize_bits) in *.
  destruct (N.leb_spec x (top - 1)) as [L|L].
  2: { left. exists a. repeat split; auto. lia. }
  right. destruct (N.ltb_spec (width F) x) as [K|K].
  { left. exists a. repeat split; auto. lia. }
  right. set (p := if w then width F - x else x).
  assert ((if w then usize_sub (width F) x else Ret x) = Ret p) as ->.
  { unfold p. destruct w; [|reflexivity]. unfold usize_sub. destruct (N.ltb_spec (width F) x); [lia|reflexivity]. }
  cbn [bind]. destruct (network_of_prefix R F a p) as (n & -> & Hn & _).
  { now apply reads_valid in Ha. }
  { unfold p. destruct w; lia. }
  cbn [bind]. exists a, n, (prefix_mask F p). repeat (split; [easy|]). split; [|exact Hn].
  right. exists x. auto.
Qed.

Lemma spec_of_inj F a n F' a' n' : spec_of F a n = spec_of F' a' n' ->
  existT (fun F => (addr F * net F)%type) F (a, n) = existT _ F' (a', n').
Proof. destruct F, F'; cbn [spec_of]; intros E; inversion E; reflexivity. Qed.

Lemma spec_of_inj_same F a n a' n' : spec_of F a n = spec_of F a' n' -> a = a' /\ n = n'.
Proof. destruct F; cbn [spec_of]; intros E; inversion E; auto. Qed.

Lemma c31_returns : forall (R : Rust) (s : str), exists r, parse_netspec s = Ret r.
Proof.
  intros R s. destruct (netspec_cases R s) as [(F & A & w & M & _ & _ & HM & E)|[(F & A & w & M & _ & _ & HM & E)|[_ E]]];
    rewrite E; [| |eauto].
  - destruct (mask_result_spec R F A w M HM) as [(e & -> & _)|[(a & e & _ & -> & _)|(a & m & n & k & _ & _ & -> & _)]]; eauto.
  - destruct (decimal_numeral M HM) as (x & Hx).
    destruct (cidr_result_spec R F A w M x Hx) as [(e & -> & _)|[(a & _ & _ & ->)|[(a & _ & _ & ->)|(a & n & k & _ & _ & -> & _)]]]; eauto.
Qed.

Lemma c32_accepts : forall (R : Rust) (F : family) (s : str) (a : addr F) (n : net F),
  parse_netspec s = Ret (ROk (spec_of F a n)) <->
  exists A w M mask, s = spec_text A w M /\ addr_shape F A /\ reads F A a /\
    describes F w M mask /\ network_of n a mask.
Proof.
  intros R F s a n. split.
  - intros E. destruct (netspec_cases R s) as [(G & A & w & M & -> & HA & HM & E')|[(G & A & w & M & -> & HA & HM & E')|[_ E']]];
      rewrite E' in E; [| |discriminate].
    + destruct (mask_result_spec R G A w M HM) as [(e & K & _)|[(b & e & _ & K & _)|(b & m & n' & k & Hr & Hm & K & Hd & Hn)]];
        rewrite K in E; try discriminate.
      assert (spec_of G b n' = spec_of F a n) as Es by congruence.
      apply spec_of_inj in Es. inversion Es; subst F. apply Eqdep_dec.inj_pair2_eq_dec in Es; [|decide equality].
      inversion Es; subst. exists A, w, M, k. auto.
    + destruct (decimal_numeral M HM) as (x & Hx).
      destruct (cidr_result_spec R G A w M x Hx) as [(e & K & _)|[(b & _ & _ & K)|[(b & _ & _ & K)|(b & n' & k & Hr & _ & K & Hd & Hn)]]];
        rewrite K in E; try discriminate.
      assert (spec_of G b n' = spec_of F a n) as Es by congruence.
      apply spec_of_inj in Es. inversion Es; subst F. apply Eqdep_dec.inj_pair2_eq_dec in Es; [|decide equality].
      inversion Es; subst. exists A, w, M, k. auto.
  - intros (A & w & M & k & -> & HA & Hr & Hd & Hn). destruct Hd as [(m & HM & Hm & Ek)|(p & Hp & Lp & Ek)].
    + rewrite (netspec_mask R F A w M HA HM).
      unfold mask_result. rewrite (proj2 (rd_spec F A a) Hr), (proj2 (rd_spec F M m) Hm). cbn [bind].
      destruct (describes_mask R F w M m HM Hm) as [Hv _].
      do 3 f_equal. apply (network_of_unique F _ _ a k); [|exact Hn].
      replace k with (value (if w then bitwise_negate m else m)).
      * apply network_of_mask; [now apply reads_valid in Hr|exact Hv].
      * rewrite Ek. destruct w; [|reflexivity]. apply negate_value. now apply reads_valid in Hm.
    + pose proof (numeral_decimal _ _ Hp) as HM. rewrite (netspec_cidr R F A w M HA HM).
      destruct (cidr_result_spec R F A w M p Hp) as [(e & K & Hn')|[(b & _ & L & K)|[(b & _ & L & K)|(b & n' & k' & Hr' & _ & K & Hd' & Hn')]]].
      * now apply Hn' in Hr.
      * pose proof (width_usize F). lia.
      * lia.
      * assert (a = b) as -> by (eapply reads_unique; eauto).
        rewrite K. do 3 f_equal. apply (network_of_unique F _ _ b k); [|exact Hn].
        destruct Hd' as [(m & HM' & _)|(p' & Hp' & _ & Ek')]; [now apply (mask_shape_decimal F M) in HM'|].
        assert (p' = p) as -> by congruence. rewrite Ek. now rewrite <- Ek'.
Qed.

Lemma c31_well_formed : forall (R : Rust) (F : family) (s : str) (a : addr F) (n : net F),
  parse_netspec s = Ret (ROk (spec_of F a n)) ->
  valid a /\ wf_net n /\ member n a /\
  value (base_addr n) = N.land (value a) (value (subnet_mask n)) /\
  (forall p, cidr_prefix n = Some p -> p <= width F).
Proof.
  intros R F s a n E. apply c32_accepts in E. destruct E as (A & w & M & k & _ & _ & Hr & _ & (W & Ek & Mem)).
  split; [now apply reads_valid in Hr|]. split; [exact W|]. split; [exact Mem|]. split.
  - apply N.bits_inj. intros i. rewrite N.land_spec.
    destruct (N.lt_ge_cases i (width F)) as [Hi|Hi].
    + destruct (N.testbit (value (subnet_mask n)) i) eqn:Eb.
      * rewrite andb_true_r. symmetry. now apply Mem.
      * rewrite andb_false_r. now apply (wf_host n W).
    + rewrite (wf_high (base_addr n)), (wf_high (subnet_mask n)), andb_false_r; try assumption; try apply W. reflexivity.
  - intros p Hp. apply (wf_prefix n W) in Hp. apply Hp.
Qed.

Lemma c32_unrecognized : forall (R : Rust) (s t : str),
  parse_netspec s = Ret (RErr (Unrecognized t)) <->
  t = s /\ ~ exists F A w M, s = spec_text A w M /\ addr_shape F A /\ (mask_shape F M \/ decimal M).
Proof.
  intros R s t. split.
  - intros E. destruct (netspec_cases R s) as [(G & A & w & M & -> & HA & HM & E')|[(G & A & w & M & -> & HA & HM & E')|[K E']]];
      rewrite E' in E.
    + destruct (mask_result_spec R G A w M HM) as [(e & K & _)|[(b & e & _ & K & _)|(b & m & n' & k & Hr & Hm & K & Hd & Hn)]]; congruence.
    + destruct (decimal_numeral M HM) as (x & Hx).
      destruct (cidr_result_spec R G A w M x Hx) as [(e & K & _)|[(b & _ & _ & K)|[(b & _ & _ & K)|(b & n' & k & Hr & _ & K & Hd & Hn)]]]; congruence.
    + split; [congruence|]. intros (F & S). now apply (K F).
  - intros (-> & K). destruct (netspec_cases R s) as [(G & A & w & M & -> & HA & HM & E')|[(G & A & w & M & -> & HA & HM & E')|[_ E']]];
      [exfalso; apply K; exists G, A, w, M; auto ..|exact E'].
Qed.

Lemma c32_bad_address : forall (R : Rust) (s : str),
  (exists e, parse_netspec s = Ret (RErr (AddressError e))) <->
  exists F A w M, s = spec_text A w M /\ addr_shape F A /\ (mask_shape F M \/ decimal M) /\
    forall a, ~ reads F A a.
Proof.
  intros R s. split.
  - intros (e' & E). destruct (netspec_cases R s) as [(G & A & w & M & -> & HA & HM & E')|[(G & A & w & M & -> & HA & HM & E')|[K E']]];
      rewrite E' in E; [| |discriminate].
    + destruct (mask_result_spec R G A w M HM) as [(e & K & Hn)|[(b & e & _ & K & _)|(b & m & n' & k & Hr & Hm & K & Hd & Hn)]];
        [|congruence..]. exists G, A, w, M. auto.
    + destruct (decimal_numeral M HM) as (x & Hx).
      destruct (cidr_result_spec R G A w M x Hx) as [(e & K & Hn)|[(b & _ & _ & K)|[(b & _ & _ & K)|(b & n' & k & Hr & _ & K & Hd & Hn)]]];
        [|congruence..]. exists G, A, w, M. auto.
  - intros (F & A & w & M & -> & HA & HM & Hn).
    assert (exists e, rd F A = Ret (RErr e)) as (e & Ee).
    { destruct (rd_cases F A) as [(a & _ & K)|(e & E & _)]; [now apply Hn in K|eauto]. }
    exists e. destruct HM as [HM|HM].
    + rewrite (netspec_mask R F A w M HA HM). unfold mask_result. now rewrite Ee.
    + rewrite (netspec_cidr R F A w M HA HM). unfold cidr_result. now rewrite Ee.
Qed.

Lemma c32_bad_mask : forall (R : Rust) (s : str),
  (exists e, parse_netspec s = Ret (RErr (MaskError e))) <->
  exists F A w M a, s = spec_text A w M /\ addr_shape F A /\ reads F A a /\ mask_shape F M /\
    forall m, ~ reads F M m.
Proof.
  intros R s. split.
  - intros (e' & E). destruct (netspec_cases R s) as [(G & A & w & M & -> & HA & HM & E')|[(G & A & w & M & -> & HA & HM & E')|[K E']]];
      rewrite E' in E; [| |discriminate].
    + destruct (mask_result_spec R G A w M HM) as [(e & K & Hn)|[(b & e & Hr & K & Hn)|(b & m & n' & k & Hr & Hm & K & Hd & Hn)]];
        [congruence| |congruence]. exists G, A, w, M, b. auto.
    + destruct (decimal_numeral M HM) as (x & Hx).
      destruct (cidr_result_spec R G A w M x Hx) as [(e & K & Hn)|[(b & _ & _ & K)|[(b & _ & _ & K)|(b & n' & k & Hr & _ & K & Hd & Hn)]]]; congruence.
  - intros (F & A & w & M & a & -> & HA & Hr & HM & Hn).
    destruct (rd_cases F M) as [(m & _ & K)|(e & E & _)]; [now apply Hn in K|]. exists e.
    rewrite (netspec_mask R F A w M HA HM). unfold mask_result. rewrite (proj2 (rd_spec F A a) Hr). cbn [bind]. now rewrite E.
Qed.

Lemma c32_bad_prefix : forall (R : Rust) (s : str) (x max : N),
  parse_netspec s = Ret (RErr (CidrRange x max)) <->
  exists F A w M a, s = spec_text A w M /\ addr_shape F A /\ reads F A a /\
    numeral 10 M = Some x /\ width F < x < 2 ^ usize_bits /\ max = width F.
Proof.
  intros R s x max. split.
  - intros E. destruct (netspec_cases R s) as [(G & A & w & M & -> & HA & HM & E')|[(G & A & w & M & -> & HA & HM & E')|[K E']]];
      rewrite E' in E; [| |discriminate].
    + destruct (mask_result_spec R G A w M HM) as [(e & K & Hn)|[(b & e & Hr & K & Hn)|(b & m & n' & k & Hr & Hm & K & Hd & Hn)]]; congruence.
    + destruct (decimal_numeral M HM) as (y & Hy).
      destruct (cidr_result_spec R G A w M y Hy) as [(e & K & Hn)|[(b & _ & _ & K)|[(b & Hr & L & K)|(b & n' & k & Hr & _ & K & Hd & Hn)]]]; [congruence..| |congruence].
      exists G, A, w, M, b. rewrite K in E. inversion E; subst. auto 10.
  - intros (F & A & w & M & a & -> & HA & Hr & Hx & L & ->).
    rewrite (netspec_cidr R F A w M HA (numeral_decimal _ _ Hx)).
    destruct (cidr_result_spec R F A w M x Hx) as [(e & K & Hn)|[(b & _ & L' & K)|[(b & _ & L' & K)|(b & n' & k & _ & L' & K & _)]]].
    + now apply Hn in Hr.
    + lia.
    + exact K.
    + lia.
Qed.

Lemma c32_huge_prefix : forall (R : Rust) (s : str) (e : int_error),
  parse_netspec s = Ret (RErr (CidrParseError e)) <->
  e = IE_PosOverflow /\
  exists F A w M a x, s = spec_text A w M /\ addr_shape F A /\ reads F A a /\
    numeral 10 M = Some x /\ 2 ^ usize_bits <= x.
Proof.
  intros R s e0. split.
  - intros E. destruct (netspec_cases R s) as [(G & A & w & M & -> & HA & HM & E')|[(G & A & w & M & -> & HA & HM & E')|[K E']]];
      rewrite E' in E; [| |discriminate].
    + destruct (mask_result_spec R G A w M HM) as [(e & K & Hn)|[(b & e & Hr & K & Hn)|(b & m & n' & k & Hr & Hm & K & Hd & Hn)]]; congruence.
    + destruct (decimal_numeral M HM) as (y & Hy).
      destruct (cidr_result_spec R G A w M y Hy) as [(e & K & Hn)|[(b & Hr & L & K)|[(b & Hr & L & K)|(b & n' & k & Hr & _ & K & Hd & Hn)]]]; [congruence| |congruence..].
      split; [congruence|]. exists G, A, w, M, b, y. auto.
  - intros (-> & F & A & w & M & a & x & -> & HA & Hr & Hx & L).
    rewrite (netspec_cidr R F A w M HA (numeral_decimal _ _ Hx)). pose proof (width_usize F).
    destruct (cidr_result_spec R F A w M x Hx) as [(e & K & Hn)|[(b & _ & L' & K)|[(b & _ & L' & K)|(b & n' & k & _ & L' & K & _)]]].
    + now apply Hn in Hr.
    + exact K.
    + lia.
    + lia.
Qed.

Lemma c29_same_network : forall (R : Rust) (F : family) (a m w : addr F) (p : N) (A P Q M W : str),
  addr_shape F A -> reads F A a -> p <= width F ->
  numeral 10 P = Some p -> numeral 10 Q = Some (width F - p) ->
  mask_shape F M -> reads F M m -> value m = prefix_mask F p ->
  mask_shape F W -> reads F W w -> value w = 2 ^ width F - 1 - prefix_mask F p ->
  exists n : net F, is_cidr n p /\ member n a /\
    parse_netspec (spec_text A false P) = Ret (ROk (spec_of F a n)) /\
    parse_netspec (spec_text A true Q) = Ret (ROk (spec_of F a n)) /\
    parse_netspec (spec_text A false M) = Ret (ROk (spec_of F a n)) /\
    parse_netspec (spec_text A true W) = Ret (ROk (spec_of F a n)).
Proof.
  intros R F a m w p A P Q M W HA Hr Hp HP HQ HM Hm Em HW Hw Ew.
  pose proof (reads_valid F _ _ Hr) as Ha.
  destruct (network_of_prefix R F a p Ha Hp) as (n & _ & Hn & Hc).
  assert (Hl : prefix_mask F p <= 2 ^ width F - 1).
  { unfold prefix_mask. pose proof (N.pow_nonzero 2 (width F - p)). lia. }
  exists n. split; [exact Hc|]. split; [apply Hn|].
  split; [|split; [|split]]; apply c32_accepts.
  - exists A, false, P, (prefix_mask F p). repeat (split; [easy|]). split; [|exact Hn]. right. exists p. auto.
  - exists A, true, Q, (prefix_mask F p). repeat (split; [easy|]). split; [|exact Hn]. right. exists (width F - p).
    split; [exact HQ|]. split; [lia|]. f_equal. lia.
  - exists A, false, M, (prefix_mask F p). repeat (split; [easy|]). split; [|exact Hn]. left. exists m. auto.
  - exists A, true, W, (prefix_mask F p). repeat (split; [easy|]). split; [|exact Hn]. left. exists w. repeat (split; [easy|]).
    rewrite Ew. lia.
Qed.

(** ** Networks as text *)
Lemma usual_hex x t : usual 16 x t -> t <> [] /\ Forall (fun c => In c (lit "0123456789abcdef")) t.
Proof.
  intros (Hn & Hu & _). destruct t as [|c t]; [discriminate|]. split; [discriminate|].
  unfold numeral in Hn. apply numeral_from_chars in Hn. rewrite Forall_forall in *.
  intros y Hy. specialize (Hn y Hy). specialize (Hu y Hy). clear -Hn Hu. unfold upper_case in Hu.
  destruct y as [b0 b1 b2 b3 b4 b5 b6 b7];
    destruct b0, b1, b2, b3, b4, b5, b6, b7; vm_compute in Hn, Hu |- *; tauto.
Qed.

Lemma hex_hexcolon t : Forall (fun c => In c (lit "0123456789abcdef")) t -> hexcolon t.
Proof.
  apply Forall_impl. intros c I. change (lit "0123456789abcdef:") with (lit "0123456789abcdef" ++ lit ":").
  apply in_or_app. now left.
Qed.

Lemma separated_hexcolon ts : Forall hexcolon ts -> hexcolon (separated ":" ts).
Proof.
  induction 1 as [|t ts Ht Hts IH]; [constructor|]. cbn [separated]. destruct ts; [exact Ht|].
  apply Forall_app. split; [exact Ht|]. constructor; [vm_compute; tauto|exact IH].
Qed.

Lemma groups_hexcolon gs ts : Forall2 (usual 16) gs ts -> Forall hexcolon ts.
Proof. induction 1; constructor; [|assumption]. eapply hex_hexcolon, usual_hex. eassumption. Qed.

Lemma Forall_first {T : Type} (P : T -> Prop) k l : Forall P l -> Forall P (firstn k l).
Proof. rewrite <- (firstn_skipn k l) at 1. rewrite Forall_app. tauto. Qed.
Lemma Forall_rest {T : Type} (P : T -> Prop) k l : Forall P l -> Forall P (skipn k l).
Proof. rewrite <- (firstn_skipn k l) at 1. rewrite Forall_app. tauto. Qed.

Lemma v6_display_shape a : valid (F := V6) a -> mask_shape V6 (v6_display a).
Proof.
  intros Ha. pose proof (chunks_has_groups a Ha) as Hg. set (gs := v6_to_chunks a) in *.
  destruct (run_or_full gs) as [Hn|(z & k & Hr)].
  { apply Hg. }
  - destruct (c04_display_full a gs Hg Hn) as (ts & Hf & ->). split; [now apply separated_hexcolon, (groups_hexcolon gs)|].
    apply Forall2_len in Hf. destruct Hg as (_ & Hl & _).
    destruct ts as [|t [|t' ts]]; [cbn [List.length] in Hf; slia..|].
    cbn [separated]. apply in_or_app. right. now left.
  - destruct (c04_display_short a gs z k Hg Hr) as (ts & Hf & ->). apply groups_hexcolon in Hf. split.
    + apply Forall_app. split; [apply separated_hexcolon, (Forall_first _ z), Hf|].
      apply Forall_app. split; [|apply separated_hexcolon, (Forall_rest _ (z + k)), Hf].
      repeat constructor; vm_compute; tauto.
    + apply in_or_app. right. apply in_or_app. left. now left.
Qed.

Lemma mask_addr_shape F s : mask_shape F s -> addr_shape F s.
Proof.
  destruct F; cbn [mask_shape addr_shape]; [auto|]. intros [H I]. split; [|exact H]. intros ->. destruct I.
Qed.

Lemma display_shape (R : Rust) F (a : addr F) : valid a -> mask_shape F (display a).
Proof.
  destruct F; [|apply v6_display_shape]. intros Ha. change (display a) with (v4_display a).
  destruct (c02_display a Ha) as (bs & ts & Hl & _ & _ & Hf & ->).
  assert (Forall decimal ts) as Hd.
  { clear Hl. induction Hf as [|b t bs ts (Hn & _) _ IH]; constructor; [|exact IH]. now apply numeral_decimal in Hn. }
  apply Forall2_len in Hf. destruct ts as [|t0 [|t1 [|t2 [|t3 [|t4 ts]]]]]; cbn [List.length] in Hf; try slia.
  inversion Hd as [|? ? D0 Hd1]; subst. inversion Hd1 as [|? ? D1 Hd2]; subst.
  inversion Hd2 as [|? ? D2 Hd3]; subst. inversion Hd3 as [|? ? D3 _]; subst.
  exists t0, t1, t2, t3. repeat (split; [assumption|]). reflexivity.
Qed.

Lemma display_reads (R : Rust) F (a : addr F) : valid a -> ~ unreadable F a -> reads F (display a) a.
Proof.
  intros Ha Hu. apply rd_spec. destruct F; cbn [rd unreadable] in *.
  - f_equal. now apply c02_roundtrip.
  - apply (c04_roundtrip a (v6_to_chunks a)); [now apply chunks_has_groups|].
    intros L. apply Hu. eexists. split; [now apply chunks_has_groups|exact L].
Qed.

Lemma display_unreadable (R : Rust) F (a : addr F) : unreadable F a -> rd F (display a) = Ret (RErr (IncorrectChunkCount 9 8)).
Proof.
  destruct F; cbn [unreadable rd]; [contradiction|]. intros (gs & Hg & L). now apply (c04_lonely_rejected a gs).
Qed.

Lemma net_display_text (R : Rust) F (n : net F) : net_display n =
  spec_text (display (base_addr n)) false
    (match cidr_prefix n with Some p => fmt_dec p | None => display (subnet_mask n) end).
Proof. unfold net_display, spec_text. destruct (cidr_prefix n); reflexivity. Qed.

Lemma c30_display : forall (R : Rust) (F : family) (n : net F),
  wf_net n ->
  (forall p, cidr_prefix n = Some p ->
     exists P, usual 10 p P /\ net_display n = spec_text (display (base_addr n)) false P) /\
  (cidr_prefix n = None ->
     net_display n = spec_text (display (base_addr n)) false (display (subnet_mask n))).
Proof.
  intros R F n W. rewrite net_display_text. split.
  - intros p ->. exists (fmt_dec p). split; [|reflexivity]. apply fmt_radix_usual. now left.
  - now intros ->.
Qed.

Lemma c30_roundtrip : forall (R : Rust) (F : family) (n : net F),
  wf_net n -> ~ unreadable F (base_addr n) ->
  (cidr_prefix n = None -> ~ unreadable F (subnet_mask n)) ->
  parse_netspec (net_display n) = Ret (ROk (spec_of F (base_addr n) n)).
Proof.
  intros R F n W Hb Hm. rewrite net_display_text. apply c32_accepts.
  exists (display (base_addr n)), false, (match cidr_prefix n with Some p => fmt_dec p | None => display (subnet_mask n) end), (value (subnet_mask n)).
  pose proof (display_shape R F _ (wf_base n W)) as S.
  split; [reflexivity|]. split; [now apply mask_addr_shape|]. split; [apply display_reads; [apply W|exact Hb]|].
  split.
  - destruct (cidr_prefix n) as [p|] eqn:E.
    + right. apply (wf_prefix n W) in E. destruct E as [Lp Ep]. exists p. split; [|split; assumption].
      apply fmt_radix_numeral. now left.
    + left. exists (subnet_mask n). split; [apply display_shape, W|]. split; [|reflexivity].
      apply display_reads; [apply W|]. now apply Hm.
  - split; [exact W|]. split; [reflexivity|]. intros i Hi _. reflexivity.
Qed.

Lemma c30_roundtrip_v4 : forall (R : Rust) (n : net V4),
  wf_net n -> parse_netspec (net_display n) = Ret (ROk (Spec4 (base_addr n) n)).
Proof. intros R n W. apply (c30_roundtrip R V4 n W); auto. Qed.

Lemma c30_unreadable : forall (R : Rust) (F : family) (n : net F),
  wf_net n ->
  (unreadable F (base_addr n) ->
     parse_netspec (net_display n) = Ret (RErr (AddressError (IncorrectChunkCount 9 8)))) /\
  (~ unreadable F (base_addr n) -> cidr_prefix n = None -> unreadable F (subnet_mask n) ->
     parse_netspec (net_display n) = Ret (RErr (MaskError (IncorrectChunkCount 9 8)))).
Proof.
  intros R F n W. rewrite net_display_text.
  pose proof (display_shape R F _ (wf_base n W)) as S. apply mask_addr_shape in S.
  pose proof (display_shape R F _ (wf_mask n W)) as S'. split.
  - intros Hu. apply (display_unreadable R) in Hu. destruct (cidr_prefix n) as [p|].
    + rewrite (netspec_cidr R F); [|exact S|apply (numeral_decimal _ p), fmt_radix_numeral; now left].
      unfold cidr_result. now rewrite Hu.
    + rewrite (netspec_mask R F) by assumption. unfold mask_result. now rewrite Hu.
  - intros Hb -> Hu. apply (display_unreadable R) in Hu. rewrite (netspec_mask R F) by assumption. unfold mask_result.
    rewrite (proj2 (rd_spec F _ _) (display_reads R F _ (wf_base n W) Hb)). cbn [bind]. now rewrite Hu.
Qed.

Lemma c30_always_roundtrips_refuted : forall (R : Rust), exists n : net V6,
  wf_net n /\ forall a n', parse_netspec (net_display n) <> Ret (ROk (spec_of V6 a n')).
Proof.
  intros R. set (a := ip6 0 1 2 3 4 5 6 7 : addr V6).
  assert (valid a) as Ha by (vm_compute; auto).
  destruct (c17_with_prefix R V6 a 128 Ha) as (n & _ & C & _ & Em & Eb & _); [vm_compute; discriminate|].
  exists n. destruct C as [W Ep]. split; [exact W|].
  assert (base_addr n = a) as Ea.
  { apply (@value_inj R V6); [apply W|exact Ha|]. rewrite Eb. vm_compute. reflexivity. }
  intros b n' K. destruct (c30_unreadable R V6 n W) as [U _]. rewrite U in K; [discriminate|].
  rewrite Ea. cbn [unreadable]. exists (v6_to_chunks a). split; [now apply chunks_has_groups|].
  left. split.
  - split; [lia|]. split; [lia|]. intros i Hi. replace i with 0%nat by lia. reflexivity.
  - intros z k (K1 & K2 & K3). assert (z = 0%nat) as ->.
    { specialize (K3 z ltac:(lia)). do 8 (destruct z as [|z]; [(reflexivity || discriminate K3)|]). lia. }
    destruct k as [|[|k]]; [lia|right; lia|]. specialize (K3 1%nat ltac:(lia)). discriminate K3.
Qed.

(** The masks of a given prefix. *)
Definition of_value (x : N) : ipv6 := Ipv6 (x / 2 ^ 64) (x mod 2 ^ 64).

Lemma of_value_spec (m : addr V6) : valid m -> m = of_value (value m).
Proof.
  intros [Ht Hb]. destruct m as [t b]. cbn [value top_half bottom_half] in *. unfold of_value. f_equal.
  - rewrite N.div_add_l, N.div_small by (assumption || discriminate). lia.
  - rewrite N.add_comm, N.mod_add, N.mod_small by (assumption || discriminate). reflexivity.
Qed.

Definition rejected (m : ipv6) : bool :=
  match v6_from_str (v6_display m) with Ret (RErr _) => true | _ => false end.

Lemma unreadable_rejected (m : addr V6) : valid m -> (unreadable V6 m <-> rejected m = true).
Proof.
  intros Hm. unfold rejected. split.
  - intros (gs & Hg & L). now rewrite (c04_lonely_rejected m gs Hg L).
  - intros E. pose proof (chunks_has_groups m Hm) as Hg. set (gs := v6_to_chunks m) in *.
    destruct (run_or_full gs) as [Hn|(z & k & Hr)]; [apply Hg| |].
    + exfalso. rewrite (c04_roundtrip m gs Hg) in E; [discriminate|].
      
      intros [[(K & L & Z) _]|[(K & L & Z) _]]; rewrite Forall_forall in Hn.
      * specialize (Z 0%nat ltac:(lia)). apply nth_error_In in Z. now apply (Hn 0).
      * specialize (Z 7%nat ltac:(lia)). apply nth_error_In in Z. now apply (Hn 0).
    + destruct (Nat.eq_dec k 1) as [->|Hk]; [destruct (Nat.eq_dec z 0) as [->|Hz]; [|destruct (Nat.eq_dec z 7) as [->|Hz7]]|].
      * exists gs. split; [exact Hg|now left].
      * exists gs. split; [exact Hg|now right].
      * exfalso. rewrite (c04_roundtrip m gs Hg) in E; [discriminate|].
        intros [K|K]; pose proof (run_unique _ _ _ _ _ Hr K); lia.
      * exfalso. rewrite (c04_roundtrip m gs Hg) in E; [discriminate|].
        intros [K|K]; pose proof (run_unique _ _ _ _ _ Hr K); lia.
Qed.

Lemma prefix_cases (P : N -> bool) p : p <= 128 -> forallb (fun i => P (N.of_nat i)) (seq 0 129) = true -> P p = true.
Proof.
  intros Hp H. rewrite forallb_forall in H. rewrite <- (N2Nat.id p). apply H. apply in_seq. lia.
Qed.

Lemma c29_printed_mask_v6 : forall (m : addr V6) (p : N),
  valid m -> p <= 128 -> value m = prefix_mask V6 p ->
  (unreadable V6 m <-> 97 <= p <= 112).
Proof.
  intros m p Hm Hp E. rewrite unreadable_rejected by assumption. rewrite (of_value_spec m Hm), E.
  assert (Bool.eqb (rejected (of_value (prefix_mask V6 p))) ((97 <=? p) && (p <=? 112)) = true) as K.
  { apply (prefix_cases (fun p => Bool.eqb (rejected (of_value (prefix_mask V6 p))) ((97 <=? p) && (p <=? 112)))); [exact Hp|vm_compute; reflexivity]. }
  apply eqb_prop in K. rewrite K, andb_true_iff, !N.leb_le. reflexivity.
Qed.

Lemma c29_printed_wildcard_v6 : forall (m : addr V6) (p : N),
  valid m -> p <= 128 -> value m = 2 ^ 128 - 1 - prefix_mask V6 p ->
  (unreadable V6 m <-> 16 <= p <= 31).
Proof.
  intros m p Hm Hp E. rewrite unreadable_rejected by assumption. rewrite (of_value_spec m Hm), E.
  assert (Bool.eqb (rejected (of_value (2 ^ 128 - 1 - prefix_mask V6 p))) ((16 <=? p) && (p <=? 31)) = true) as K.
  { apply (prefix_cases (fun p => Bool.eqb (rejected (of_value (2 ^ 128 - 1 - prefix_mask V6 p))) ((16 <=? p) && (p <=? 31)))); [exact Hp|vm_compute; reflexivity]. }
  apply eqb_prop in K. rewrite K, andb_true_iff, !N.leb_le. reflexivity.
Qed.

(** ** Lists of specifications *)
Definition view (F : family) : network_spec -> option (addr F * net F) :=
  match F as F return network_spec -> option (addr F * net F) with
  | V4 => fun s => match s with Spec4 a n => Some (a, n) | _ => None end
  | V6 => fun s => match s with Spec6 a n => Some (a, n) | _ => None end
  end.

Lemma view_of F a n : view F (spec_of F a n) = Some (a, n).
Proof. destruct F; reflexivity. Qed.

Lemma spec_cases F sp : (exists a n, sp = spec_of F a n) \/ (exists G a n, F <> G /\ sp = spec_of G a n /\ view F sp = None).
Proof.
  destruct F, sp as [a n|a n]; [left|right|right|left]; eauto.
  - exists V6, a, n. repeat split. discriminate.
  - exists V4, a, n. repeat split. discriminate.
Qed.

Section Lists.
  Context (R : Rust) (F : family).
  Fixpoint gloop (ss : list str) (acc : list (addr F * net F)) : res (result network_specs netspec_error) :=
    match ss with
    | [] => Ret (ROk (specs_of F acc))
    | s :: rest =>
        r <- parse_netspec s ;;
        match r with
        | RErr e => Ret (RErr e)
        | ROk sp => match view F sp with Some an => gloop rest (acc ++ [an]) | None => Ret (ROk SpecsMixed) end
        end
    end.

  Definition good (G : family) (t : str) : Prop := exists (a : addr G) n, parse_netspec t = Ret (ROk (spec_of G a n)).
  Definition reads_as (s : str) (an : addr F * net F) : Prop := parse_netspec s = Ret (ROk (spec_of F (fst an) (snd an))).

  Lemma gloop_ok ss l acc : Forall2 reads_as ss l -> gloop ss acc = Ret (ROk (specs_of F (acc ++ l))).
  Proof.
    intros H. revert acc. induction H as [|s [a n] ss l Hs _ IH]; intros acc; cbn [gloop]; [now rewrite app_nil_r|].
    unfold reads_as in Hs. rewrite Hs. cbn [bind fst snd]. rewrite view_of, IH, <- app_assoc. reflexivity.
  Qed.
  Lemma gloop_err pre s post e acc : Forall (good F) pre -> parse_netspec s = Ret (RErr e) -> gloop (pre ++ s :: post) acc = Ret (RErr e).
  Proof.
    intros H E. revert acc. induction H as [|t ss (a & n & Ht) _ IH]; intros acc; cbn [gloop List.app].
    - now rewrite E.
    - rewrite Ht. cbn [bind]. rewrite view_of. apply IH.
  Qed.
  Lemma gloop_mixed G pre s post acc : Forall (good F) pre -> good G s -> F <> G -> gloop (pre ++ s :: post) acc = Ret (ROk SpecsMixed).
  Proof.
    intros H (a & n & E) D. revert acc. induction H as [|t ss (a' & n' & Ht) _ IH]; intros acc; cbn [gloop List.app].
    - rewrite E. cbn [bind]. destruct (spec_cases F (spec_of G a n)) as [(b & k & K)|(_ & _ & _ & _ & _ & ->)]; [|reflexivity].
      exfalso. destruct F, G; cbn [spec_of] in K; congruence.
    - rewrite Ht. cbn [bind]. rewrite view_of. apply IH.
  Qed.
  Lemma gloop_cases ss :
    (exists l, Forall2 reads_as ss l) \/
    (exists e pre s post, ss = pre ++ s :: post /\ parse_netspec s = Ret (RErr e) /\ Forall (good F) pre) \/
    (exists G pre s post, F <> G /\ ss = pre ++ s :: post /\ good G s /\ Forall (good F) pre).
  Proof.
    induction ss as [|s ss IH]; [left; exists []; constructor|].
    destruct (c31_returns R s) as ([sp|e] & E).
    2: { right. left. exists e, [], s, ss. repeat split; auto. }
    destruct (spec_cases F sp) as [(a & n & ->)|(G & a & n & D & -> & _)].
    2: { right. right. exists G, [], s, ss. repeat split; auto. now exists a, n. }
    assert (good F s) as Hg by now exists a, n.
    destruct IH as [(l & IH)|[(e & pre & t & post & -> & Et & Hp)|(G & pre & t & post & D & -> & Et & Hp)]].
    - left. exists ((a, n) :: l). now constructor.
    - right. left. exists e, (s :: pre), t, post. repeat split; auto.
    - right. right. exists G, (s :: pre), t, post. repeat split; auto.
  Qed.
End Lists.

Lemma specs_loop (R : Rust) F a n s ss : parse_netspec s = Ret (ROk (spec_of F a n)) ->
  parse_same_family_netspecs (s :: ss) = gloop R F (s :: ss) [].
Proof.
  intros E. cbn [parse_same_family_netspecs gloop]. rewrite E. cbn [bind]. rewrite view_of. cbn [List.app].
  destruct F; cbn [spec_of]; clear E.
  - enough (forall acc, specs4_loop ss acc = gloop R V4 ss acc) as A by apply A.
    induction ss as [|t ss IH]; intros acc; cbn [specs4_loop gloop]; [reflexivity|].
    destruct (parse_netspec t) as [[[b k|b k]|e]| |]; cbn [bind view]; (reflexivity || apply IH).
  - enough (forall acc, specs6_loop ss acc = gloop R V6 ss acc) as A by apply A.
    induction ss as [|t ss IH]; intros acc; cbn [specs6_loop gloop]; [reflexivity|].
    destruct (parse_netspec t) as [[[b k|b k]|e]| |]; cbn [bind view]; (reflexivity || apply IH).
Qed.

Lemma specs_cases (R : Rust) ss :
  (ss = [] /\ parse_same_family_netspecs ss = Ret (ROk SpecsNothing)) \/
  (exists F l, ss <> [] /\ Forall2 (reads_as R F) ss l /\ parse_same_family_netspecs ss = Ret (ROk (specs_of F l))) \/
  (exists F e pre s post, ss = pre ++ s :: post /\ parse_netspec s = Ret (RErr e) /\ Forall (good R F) pre /\
     parse_same_family_netspecs ss = Ret (RErr e)) \/
  (exists F G pre s post, F <> G /\ pre <> [] /\ ss = pre ++ s :: post /\ good R G s /\ Forall (good R F) pre /\
     parse_same_family_netspecs ss = Ret (ROk SpecsMixed)).
Proof.
  destruct ss as [|s ss]; [now left|]. right. destruct (c31_returns R s) as ([sp|e] & E).
  2: { right. left. exists V4, e, [], s, ss. repeat split; auto. cbn [parse_same_family_netspecs]. now rewrite E. }
  assert (exists F a n, sp = spec_of F a n) as (F & a & n & ->).
  { destruct sp as [a n|a n]; [exists V4|exists V6]; eauto. }
  rewrite (specs_loop R F a n s ss E).
  destruct (gloop_cases R F (s :: ss)) as [(l & H)|[(e & pre & t & post & Es & Et & Hp)|(G & pre & t & post & D & Es & Et & Hp)]].
  - left. exists F, l. split; [discriminate|]. split; [exact H|]. now rewrite (gloop_ok R F _ _ [] H).
  - right. left. exists F, e, pre, t, post. repeat (split; [assumption|]). rewrite Es. now apply gloop_err.
  - right. right. exists F, G, pre, t, post. split; [exact D|]. split.
    + intros ->. cbn [List.app] in Es. inversion Es; subst. destruct Et as (b & k & Et). rewrite E in Et.
      destruct F, G; cbn [spec_of] in Et; congruence.
    + repeat (split; [assumption|]). rewrite Es. now apply (gloop_mixed R F G).
Qed.

Lemma c33_accepts : forall (R : Rust) (F : family) (ss : list str) (l : list (addr F * net F)),
  parse_same_family_netspecs ss = Ret (ROk (specs_of F l)) <->
  ss <> [] /\ Forall2 (fun s an => parse_netspec s = Ret (ROk (spec_of F (fst an) (snd an)))) ss l.
Proof.
  intros R F ss l. split.
  - intros E. destruct (specs_cases R ss) as [(_ & K)|[(G & l' & Hne & H & K)|[(G & e & pre & s & post & _ & _ & _ & K)|(G & G' & pre & s & post & _ & _ & _ & _ & _ & K)]]];
      rewrite K in E; try (destruct F; discriminate).
    destruct F, G; cbn [specs_of] in E; try discriminate; inversion E; subst; split; assumption.
  - intros [Hne H]. destruct H as [|s [a n] ss l Hs H]; [congruence|].
    rewrite (specs_loop R F a n s ss Hs). now apply (gloop_ok R F _ _ []); constructor.
Qed.

Lemma c33_nothing : forall (R : Rust) (ss : list str),
  parse_same_family_netspecs ss = Ret (ROk SpecsNothing) <-> ss = [].
Proof.
  intros R ss. split; [|now intros ->].
  intros E. destruct (specs_cases R ss) as [(H & K)|[(G & l' & Hne & H & K)|[(G & e & pre & s & post & _ & _ & _ & K)|(G & G' & pre & s & post & _ & _ & _ & _ & _ & K)]]];
    rewrite K in E; try discriminate; [assumption|destruct G; discriminate].
Qed.

Lemma c33_first_error : forall (R : Rust) (ss : list str) (e : netspec_error),
  parse_same_family_netspecs ss = Ret (RErr e) <->
  exists F pre s post, ss = pre ++ s :: post /\ parse_netspec s = Ret (RErr e) /\
    Forall (fun t => exists (a : addr F) n, parse_netspec t = Ret (ROk (spec_of F a n))) pre.
Proof.
  intros R ss e. split.
  - intros E. destruct (specs_cases R ss) as [(H & K)|[(G & l' & Hne & H & K)|[(G & e' & pre & s & post & Es & Ee & Hp & K)|(G & G' & pre & s & post & _ & _ & _ & _ & _ & K)]]];
      rewrite K in E; try discriminate.
    inversion E; subst. exists G, pre, s, post. auto.
  - intros (F & pre & s & post & -> & E & Hp). destruct pre as [|t pre].
    + cbn [List.app parse_same_family_netspecs]. now rewrite E.
    + pose proof Hp as Hp'. apply Forall_inv in Hp'. destruct Hp' as (a & n & Et). cbn [List.app].
      rewrite (specs_loop R F a n t _ Et). now apply (gloop_err R F (t :: pre)).
Qed.

Lemma c33_mixed : forall (R : Rust) (ss : list str),
  parse_same_family_netspecs ss = Ret (ROk SpecsMixed) <->
  exists F G pre s post, F <> G /\ pre <> [] /\ ss = pre ++ s :: post /\
    (exists (a : addr G) n, parse_netspec s = Ret (ROk (spec_of G a n))) /\
    Forall (fun t => exists (a : addr F) n, parse_netspec t = Ret (ROk (spec_of F a n))) pre.
Proof.
  intros R ss. split.
  - intros E. destruct (specs_cases R ss) as [(H & K)|[(G & l' & Hne & H & K)|[(G & e' & pre & s & post & _ & _ & _ & K)|(G & G' & pre & s & post & D & Hne & Es & Hg & Hp & K)]]];
      rewrite K in E; try discriminate; [destruct G; discriminate|].
    exists G, G', pre, s, post. auto.
  - intros (F & G & pre & s & post & D & Hne & -> & Hg & Hp). destruct pre as [|t pre]; [congruence|].
    pose proof Hp as Hp'. apply Forall_inv in Hp'. destruct Hp' as (a & n & Et). cbn [List.app].
    rewrite (specs_loop R F a n t _ Et). now apply (gloop_mixed R F G (t :: pre)).
Qed.

Lemma c33_returns : forall (R : Rust) (ss : list str), exists r, parse_same_family_netspecs ss = Ret r.
Proof.
  intros R ss. destruct (specs_cases R ss) as [(H & K)|[(G & l' & Hne & H & K)|[(G & e' & pre & s & post & _ & _ & _ & K)|(G & G' & pre & s & post & D & Hne & Es & Hg & Hp & K)]]]; eauto.
Qed.

(** ** Address and subnet arguments *)
Lemma contains_in c s : contains_char c s = true <-> In c s.
Proof.
  unfold contains_char. rewrite existsb_exists. split.
  - intros (x & I & E). apply Ascii.eqb_eq in E. now subst.
  - intros I. exists c. split; [exact I|apply Ascii.eqb_refl].
Qed.

Lemma not_contains c s : contains_char c s = false <-> ~ In c s.
Proof. rewrite <- contains_in. now destruct (contains_char c s). Qed.

Lemma padded_in c s : c <> "0"%char -> (In c (padded s) <-> In c s).
Proof.
  intros Hc. rewrite padded_code. cbv zeta.
  assert (In c (if starts_with_char ":" s then "0"%char :: s else s) <-> In c s) as A.
  { destruct (starts_with_char ":" s); cbn [In]; [|tauto]. intuition congruence. }
  rewrite <- A. generalize (if starts_with_char ":" s then "0"%char :: s else s). intros t.
  destruct (ends_with_char ":" t); [|tauto]. rewrite in_app_iff. cbn. intuition congruence.
Qed.

Lemma separated_in c d ts : In c (separated d ts) -> c = d \/ Exists (fun t : str => In c t) ts.
Proof.
  induction ts as [|t ts IH]; [intros []|]. cbn [separated]. destruct ts as [|t' ts].
  - intros I. right. now constructor.
  - intros I. apply in_app_or in I. destruct I as [I|[I|I]]; [right; now constructor|now left|].
    destruct (IH I) as [K|K]; [now left|right; now constructor 2].
Qed.

Lemma groups_no_dot gs ts : Forall2 group_text gs ts -> ~ Exists (fun t : str => In "."%char t) ts.
Proof.
  induction 1 as [|g t gs ts (Hw & _) _ IH]; intros E; [inversion E|]. inversion E; subst; [|auto].
  revert H0. eapply written_not_in; [| |exact Hw]; [reflexivity|discriminate].
Qed.

Lemma reads4_chars s a : reads V4 s a -> In "."%char s /\ ~ In ":"%char s.
Proof.
  intros (_ & t0 & t1 & t2 & t3 & x0 & x1 & x2 & x3 & -> & W0 & W1 & W2 & W3 & _).
  split; [apply in_or_app; right; now left|].
  apply (written_not_in 10 _ _ ":"%char eq_refl ltac:(discriminate)) in W0, W1, W2, W3.
  rewrite in_app_iff. cbn [In]. rewrite in_app_iff. cbn [In]. rewrite in_app_iff. cbn [In]. intuition congruence.
Qed.

Lemma reads6_chars s a : reads V6 s a -> s <> [] -> In ":"%char s /\ ~ In "."%char s.
Proof.
  intros (gs & _ & [(ts & Hl & Hf & E)|[(l & r & _ & _ & _ & ls & rs & Hl & Hr & E & _)|[-> _]]]) Hne; [| |congruence].
  - rewrite <- (padded_in ":"%char s), <- (padded_in "."%char s) by discriminate. rewrite E. split.
    + destruct ts as [|t [|t' ts]]; [discriminate..|]. cbn [separated]. apply in_or_app. right. now left.
    + intros I. apply separated_in in I. destruct I as [I|I]; [discriminate|]. now apply (groups_no_dot gs) in I.
  - rewrite <- (padded_in ":"%char s), <- (padded_in "."%char s) by discriminate. rewrite E. split.
    + apply in_or_app. right. apply in_or_app. left. now left.
    + intros I. apply in_app_or in I. destruct I as [I|I].
      { apply separated_in in I. destruct I as [I|I]; [discriminate|]. now apply (groups_no_dot l) in I. }
      apply in_app_or in I. destruct I as [I|I].
      { cbn in I. intuition discriminate. }
      apply separated_in in I. destruct I as [I|I]; [discriminate|]. now apply (groups_no_dot r) in I.
Qed.

Lemma v4_known s : v4_from_str s <> RErr UnknownAddressType.
Proof.
  unfold v4_from_str. destruct (negb _); [discriminate|].
  assert (forall ts i x, v4_parse_loop i ts x <> RErr UnknownAddressType) as A.
  { induction ts as [|t ts IH]; intros i x; cbn [v4_parse_loop]; [discriminate|]. destruct t; [discriminate|].
    destruct (parse_uint _ _ _) as [y|]; cbn [map_err rbind]; [|discriminate]. destruct (255 <? y); [discriminate|apply IH]. }
  specialize (A (split_on "." s) 0%nat 0). destruct (v4_parse_loop _ _ _); cbn [rbind]; [discriminate|congruence].
Qed.

Lemma v6_known s : v6_from_str s <> Ret (RErr UnknownAddressType).
Proof.
  assert (forall n i l t b, v6_value_loop n i l t b <> Ret (RErr UnknownAddressType)) as A.
  { induction n as [|n IH]; intros i l t b; cbn [v6_value_loop]; [discriminate|].
    destruct (index l i); cbn [bind]; [|discriminate..]. destruct (parse_uint _ _ _); [|discriminate].
    destruct (Nat.ltb i 4); apply IH. }
  unfold v6_from_str. cbv zeta. destruct (Nat.ltb 8 _); [discriminate|]. destruct (Nat.ltb 1 _); [discriminate|].
  destruct (Nat.eqb _ 0); [destruct (negb _); [discriminate|apply A]|].
  destruct (v6_copy_front _ _ _); cbn [bind]; [|discriminate..].
  destruct (v6_copy_back _ _ _); cbn [bind]; [|discriminate..]. apply A.
Qed.

Lemma c34_address : forall (F : family) (s : str) (a : addr F),
  parse_addr s = Ret (ROk (parsed_of F a)) <-> s <> [] /\ reads F s a.
Proof.
  intros F s a. unfold parse_addr. split.
  - destruct (contains_char "." s) eqn:Ed; destruct (contains_char ":" s) eqn:Ec; try discriminate.
    + intros E. apply contains_in in Ed. split; [intros ->; destruct Ed|]. apply rd_spec.
      destruct (v4_from_str s) as [b|e] eqn:Es; cbn [rbind] in E; [|discriminate].
      destruct F; cbn [parsed_of rd] in *; [|discriminate]. inversion E; subst. now rewrite Es.
    + intros E. apply contains_in in Ec. split; [intros ->; destruct Ec|]. apply rd_spec.
      destruct (v6_from_str s) as [[b|e]| |] eqn:Es; cbn [rbind bind] in E; try discriminate.
      destruct F; cbn [parsed_of rd] in *; [discriminate|]. inversion E; subst. exact Es.
  - intros [Hne Hr]. destruct F.
    + pose proof (reads4_chars s a Hr) as [I J]. apply contains_in in I. apply not_contains in J. rewrite I, J.
      apply rd_spec in Hr. cbn [rd] in Hr. inversion Hr as [E]. now rewrite E.
    + pose proof (reads6_chars s a Hr Hne) as [I J]. apply contains_in in I. apply not_contains in J. rewrite I, J.
      apply rd_spec in Hr. cbn [rd] in Hr. now rewrite Hr.
Qed.

Lemma c34_unknown : forall (s : str),
  parse_addr s = Ret (RErr UnknownAddressType) <-> (In "."%char s <-> In ":"%char s).
Proof.
  intros s. rewrite <- !contains_in. unfold parse_addr.
  destruct (contains_char "." s); destruct (contains_char ":" s).
  - tauto.
  - split; [|intros [K _]; now specialize (K eq_refl)]. intros E. exfalso. apply (v4_known s).
    destruct (v4_from_str s); cbn [rbind] in E; [discriminate|]. now inversion E.
  - split; [|intros [_ K]; now specialize (K eq_refl)]. intros E. exfalso. apply (v6_known s).
    destruct (v6_from_str s) as [[b|e]| |]; cbn [rbind bind] in E; try discriminate. now inversion E.
  - split; auto. intros _. split; discriminate.
Qed.

Lemma addr_returns s : exists r, parse_addr s = Ret r.
Proof. destruct (c05_returns s) as (r & E). unfold parse_addr. destruct (contains_char "." s), (contains_char ":" s); eauto. rewrite E. cbn [bind]. eauto. Qed.

Lemma c34_returns : forall (R : Rust) (s : str),
  (exists r, parse_addr s = Ret r) /\ (exists r, parse_subnet s = Ret r).
Proof.
  intros R s. destruct (c05_returns s) as (r & E). split.
  - unfold parse_addr. destruct (contains_char "." s), (contains_char ":" s); eauto. rewrite E. cbn [bind]. eauto.
  - unfold parse_subnet. destruct (contains_char ":" s), (contains_char "." s); eauto; rewrite E; cbn [bind]; eauto.
Qed.

Lemma c34_subnet : forall (R : Rust) (s : str),
  (forall m, parse_subnet s = Ret (ROk (PSMask6 m)) <-> s <> [] /\ reads V6 s m) /\
  (forall m, parse_subnet s = Ret (ROk (PSMask4 m)) <-> reads V4 s m) /\
  (forall p, parse_subnet s = Ret (ROk (PSCidr p)) <-> written 10 s p /\ p < 2 ^ usize_bits).
Proof.
  intros R s. unfold parse_subnet. split; [|split].
  - intros m. split.
    + destruct (contains_char ":" s) eqn:Ec.
      * apply contains_in in Ec. intros E. split; [intros ->; destruct Ec|]. apply rd_spec. cbn [rd].
        destruct (v6_from_str s) as [[b|e]| |]; cbn [bind] in E; try discriminate. now inversion E.
      * destruct (contains_char "." s); [destruct (v4_from_str s); discriminate|].
        destruct (parse_uint _ _ _); discriminate.
    + intros [Hne Hr]. pose proof (reads6_chars s m Hr Hne) as [I _]. apply contains_in in I. rewrite I.
      apply rd_spec in Hr. cbn [rd] in Hr. now rewrite Hr.
  - intros m. split.
    + destruct (contains_char ":" s) eqn:Ec.
      * destruct (v6_from_str s) as [[b|e]| |]; discriminate.
      * destruct (contains_char "." s) eqn:Ed; [|destruct (parse_uint _ _ _); discriminate].
        intros E. apply rd_spec. cbn [rd]. destruct (v4_from_str s); [now inversion E|discriminate].
    + intros Hr. pose proof (reads4_chars s m Hr) as [I J]. apply contains_in in I. apply not_contains in J. rewrite I, J.
      apply rd_spec in Hr. cbn [rd] in Hr. inversion Hr as [E]. now rewrite E.
  - intros p. split.
    + destruct (contains_char ":" s) eqn:Ec; [destruct (v6_from_str s) as [[b|e]| |]; discriminate|].
      destruct (contains_char "." s) eqn:Ed; [destruct (v4_from_str s); discriminate|].
      intros E. destruct (parse_uint 10 usize_max s) as [q|e] eqn:Ep; [|discriminate]. inversion E; subst.
      apply parse_uint_spec in Ep; [|now left]. destruct Ep as [W L]. split; [exact W|].
      unfold usize_max in L. pose proof (width_usize V4). lia.
    + intros [W L]. pose proof (written_not_in _ _ _ ":"%char eq_refl ltac:(discriminate) W) as I.
      pose proof (written_not_in _ _ _ "."%char eq_refl ltac:(discriminate) W) as J.
      apply not_contains in I, J. rewrite I, J.
      assert (parse_uint 10 usize_max s = ROk p) as ->; [|reflexivity].
      apply parse_uint_spec; [now left|]. split; [exact W|]. unfold usize_max. lia.
Qed.
