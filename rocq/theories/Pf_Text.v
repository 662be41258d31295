(** * Pf_Text: proofs for P_Text *)
From Verif Require Import RustBase Addr Spec SpecText Demo TextFacts Pf_Addr.
From Coq Require Import ZifyBool ZifyNat ZifyN.
Ltac Zify.zify_post_hook ::= idtac.

(** [str] is an abbreviation that [lia] does not look through. *)
Ltac slia := unfold str in *; lia.

Lemma rdx10 : rdx 10. Proof. now left. Qed.
Lemma rdx16 : rdx 16. Proof. now right. Qed.
#[local] Hint Resolve rdx10 rdx16 : core.

Lemma Forall2_len {A B} (P : A -> B -> Prop) l l' : Forall2 P l l' -> List.length l = List.length l'.
Proof. induction 1; cbn; congruence. Qed.

Lemma usual_written r x s : usual r x s -> written r s x.
Proof. intros [H _]. now left. Qed.

Lemma Forall2_usual r xs : rdx r -> Forall2 (usual r) xs (map (fmt_radix r) xs).
Proof. intros H. induction xs; cbn [map]; constructor; auto using fmt_radix_usual. Qed.

(** ** IPv4 *)
Lemma v4_ext (a b : addr V4) : value a = value b -> a = b.
Proof. destruct a as [x], b as [y]. cbn [value addr_value]. congruence. Qed.

Lemma v4_bytes_spec a : valid (F := V4) a ->
  List.length (v4_to_bytes a) = 4%nat /\ u8s (v4_to_bytes a) /\ be_value (v4_to_bytes a) = value (F := V4) a.
Proof.
  intros H. destruct (c01_bytes_of_address debug_env V4 a H) as (E & Hu & Hv).
  split; [reflexivity|]. split; assumption.
Qed.

Lemma c02_display : forall (a : addr V4),
  valid a ->
  exists bs ts, List.length bs = 4%nat /\ u8s bs /\ be_value bs = value a /\
    Forall2 (usual 10) bs ts /\ v4_display a = separated "." ts.
Proof.
  intros a Ha. destruct (v4_bytes_spec a Ha) as (Hl & Hu & Hv).
  exists (v4_to_bytes a), (map fmt_dec (v4_to_bytes a)).
  split; [assumption|]. split; [assumption|]. split; [assumption|]. split.
  - now apply Forall2_usual.
  - unfold v4_display. apply separated_join.
Qed.

Definition okchunk (x : N) (t : str) : Prop := written 10 t x /\ x <= 255.

Definition v4_step (i : nat) (acc x : N) : N := N.lor acc (shl32 x (24 - N.of_nat i * 8)).
Fixpoint v4_acc (i : nat) (acc : N) (xs : list N) : N :=
  match xs with [] => acc | x :: xs => v4_acc (S i) (v4_step i acc x) xs end.

Lemma parse_ok t x : written 10 t x -> x <= u32_max -> parse_uint 10 u32_max t = ROk x.
Proof. intros H Hx. now apply parse_uint_spec. Qed.

Lemma v4_loop_good ts xs : Forall2 okchunk xs ts -> forall i acc us,
  v4_parse_loop i (ts ++ us) acc = v4_parse_loop (i + List.length ts) us (v4_acc i acc xs).
Proof.
  induction 1 as [|x t xs ts [H Hx] _ IH]; intros i acc us.
  - cbn. now rewrite Nat.add_0_r.
  - cbn [List.app v4_parse_loop]. pose proof (written_nonempty _ _ _ H) as Hne.
    destruct t as [|c t]; [congruence|].
    rewrite (parse_ok _ x) by (assumption || (unfold u32_max; lia)). cbn [map_err rbind].
    destruct (N.ltb_spec 255 x); [lia|]. rewrite IH. cbn [List.length v4_acc]. f_equal. lia.
Qed.

Lemma v4_loop_ok ts : forall i acc y, v4_parse_loop i ts acc = ROk y ->
  exists xs, Forall2 okchunk xs ts /\ y = v4_acc i acc xs.
Proof.
  induction ts as [|t ts IH]; intros i acc y E; cbn [v4_parse_loop] in E.
  - inversion E; subst. exists []. split; [constructor|reflexivity].
  - destruct t as [|c t]; [discriminate|].
    destruct (parse_uint 10 u32_max (c :: t)) as [x|e] eqn:Ep; cbn [map_err rbind] in E; [|discriminate].
    apply parse_uint_spec in Ep; [|auto]. destruct Ep as [Hw _].
    destruct (N.ltb_spec 255 x); [discriminate|].
    apply IH in E. destruct E as (xs & Hf & ->). exists (x :: xs). split; [|reflexivity].
    constructor; [now split|exact Hf].
Qed.

Lemma v4_acc_four x0 x1 x2 x3 :
  v4_acc 0 0 [x0; x1; x2; x3] = match v4_from_bytes [x0; x1; x2; x3] with Some a => addr_value a | None => 0 end.
Proof. cbn [v4_acc v4_from_bytes addr_value]. unfold v4_step. now rewrite N.lor_0_l. Qed.

Lemma okchunk_no_dot x t : okchunk x t -> ~ In "."%char t.
Proof. intros [H _]. eapply written_not_in; [..|exact H]; [reflexivity|discriminate]. Qed.

Lemma okchunks_no_dot xs ts : Forall2 okchunk xs ts -> Forall (fun t : str => ~ In "."%char t) ts.
Proof. induction 1; constructor; eauto using okchunk_no_dot. Qed.

Lemma be4 x0 x1 x2 x3 : be_value [x0; x1; x2; x3] = x0 * 2 ^ 24 + x1 * 2 ^ 16 + x2 * 2 ^ 8 + x3.
Proof. unfold be_value. cbn [fold_left]. change (2 ^ 24) with (256 * 256 * 256). change (2 ^ 16) with (256 * 256). change (2 ^ 8) with 256. ring. Qed.

Lemma v4_from_ok ts xs : Forall2 okchunk xs ts -> List.length ts = 4%nat ->
  exists a : addr V4, v4_from_str (separated "." ts) = ROk a /\ valid a /\ value a = be_value xs.
Proof.
  intros Hf Hl. pose proof (Forall2_len _ _ _ Hf) as Hl'.
  destruct xs as [|x0 [|x1 [|x2 [|x3 [|? ?]]]]]; cbn in Hl'; try lia.
  assert (u8s [x0; x1; x2; x3]) as Hu.
  { unfold u8s. clear -Hf. remember [x0; x1; x2; x3] as xs eqn:E. clear E.
    induction Hf as [|x t xs ts [_ Hx] _ IH]; constructor; [lia|exact IH]. }
  destruct (c01_address_of_bytes debug_env V4 [x0; x1; x2; x3] Hu eq_refl) as (a & Ea & Ha & Hv & _).
  exists a. split; [|now split].
  unfold v4_from_str. rewrite split_of_separated; [|now destruct ts|now apply (okchunks_no_dot _ _ Hf)].
  rewrite Hl. cbn [Nat.eqb negb].
  rewrite <- (app_nil_r ts). rewrite (v4_loop_good _ _ Hf). cbn [v4_parse_loop rbind].
  rewrite v4_acc_four. cbn [from_bytes addr_ops ipv4_ops] in Ea.
  change (v4_from_bytes [x0; x1; x2; x3] = Some a) in Ea. rewrite Ea. now destruct a.
Qed.

Lemma c02_roundtrip : forall (a : addr V4), valid a -> v4_from_str (v4_display a) = ROk a.
Proof.
  intros a Ha. destruct (v4_bytes_spec a Ha) as (Hl & Hu & Hv).
  destruct (v4_from_ok (map fmt_dec (v4_to_bytes a)) (v4_to_bytes a)) as (b & Eb & Hb & Hvb).
  - assert (forall bs, u8s bs -> Forall2 okchunk bs (map fmt_dec bs)) as A.
    { induction 1; cbn [map]; constructor; [|assumption]. split; [|lia]. left. now apply fmt_radix_numeral. }
    now apply A.
  - now rewrite map_length.
  - unfold v4_display. rewrite (separated_join "."), Eb. f_equal.
    apply v4_ext. congruence.
Qed.

Lemma c03_accepts : forall (s : str) (a : addr V4),
  v4_from_str s = ROk a <-> valid a /\ v4_text s a.
Proof.
  intros s a. split.
  - intros E. pose proof E as E0. unfold v4_from_str in E.
    pose proof (split_separated "." s) as Es.
    destruct (Nat.eqb_spec (List.length (split_on "." s)) 4) as [Hl|]; cbn [negb] in E; [|discriminate].
    destruct (v4_parse_loop 0 (split_on "." s) 0) as [y|] eqn:Ep; cbn [rbind] in E; [|discriminate].
    apply v4_loop_ok in Ep. destruct Ep as (xs & Hf & _).
    destruct (v4_from_ok _ _ Hf Hl) as (b & Eb & Hb & Hv). rewrite Es in Eb.
    assert (a = b) as -> by congruence.
    split; [exact Hb|].
    destruct (split_on "." s) as [|t0 [|t1 [|t2 [|t3 [|? ?]]]]]; cbn in Hl; try lia.
    inversion Hf as [|x0 ? xs0 ? [W0 L0] Hf0]; subst. inversion Hf0 as [|x1 ? xs1 ? [W1 L1] Hf1]; subst.
    inversion Hf1 as [|x2 ? xs2 ? [W2 L2] Hf2]; subst. inversion Hf2 as [|x3 ? xs3 ? [W3 L3] Hf3]; subst.
    inversion Hf3; subst. exists t0, t1, t2, t3, x0, x1, x2, x3.
    rewrite be4 in Hv. repeat split; assumption || (cbn [separated]; reflexivity).
  - intros (Ha & t0 & t1 & t2 & t3 & x0 & x1 & x2 & x3 & -> & W0 & W1 & W2 & W3 & L0 & L1 & L2 & L3 & Hv).
    destruct (v4_from_ok [t0; t1; t2; t3] [x0; x1; x2; x3]) as (b & Eb & Hb & Hvb).
    + repeat apply Forall2_cons; [now split..|constructor].
    + reflexivity.
    + change (separated "." [t0; t1; t2; t3]) with (t0 ++ "."%char :: t1 ++ "."%char :: t2 ++ "."%char :: t3) in Eb.
      rewrite Eb. f_equal. rewrite be4 in Hvb. apply v4_ext. congruence.
Qed.

Lemma c03_chunk_count : forall (s : str) (k n : nat),
  v4_from_str s = RErr (IncorrectChunkCount k n) <->
  k <> 4%nat /\ n = 4%nat /\
  exists ts : list str, List.length ts = k /\ ts <> [] /\ Forall (fun t : str => ~ In "."%char t) ts /\ s = separated "." ts.
Proof.
  intros s k n. unfold v4_from_str.
  assert (forall ts i acc, v4_parse_loop i ts acc <> RErr (IncorrectChunkCount k n)) as A.
  { induction ts as [|t ts IH]; intros i acc; cbn [v4_parse_loop]; [discriminate|].
    destruct t as [|c t]; [discriminate|].
    destruct (parse_uint 10 u32_max (c :: t)); cbn [map_err rbind]; [|discriminate].
    destruct (255 <? a); [discriminate|apply IH]. }
  split.
  - destruct (Nat.eqb_spec (List.length (split_on "." s)) 4) as [Hl|Hl]; cbn [negb].
    + specialize (A (split_on "." s) 0%nat 0). destruct (v4_parse_loop 0 (split_on "." s) 0); cbn [rbind]; congruence.
    + intros E. inversion E; subst. repeat split; [assumption|]. exists (split_on "." s).
      repeat split; auto using split_on_nonempty, split_pieces. symmetry. apply split_separated.
  - intros (Hk & -> & ts & Hl & Hne & Hf & ->). rewrite split_of_separated by assumption.
    destruct (Nat.eqb_spec (List.length ts) 4); [congruence|]. cbn [negb]. congruence.
Qed.

Lemma c03_first_bad_chunk : forall (ts us : list str) (t : str) (xs : list N),
  List.length (ts ++ t :: us) = 4%nat ->
  Forall (fun t : str => ~ In "."%char t) (ts ++ t :: us) ->
  Forall2 (fun x t => written 10 t x /\ x <= 255) xs ts ->
  (t = [] -> v4_from_str (separated "." (ts ++ t :: us)) = RErr (EmptyChunk (List.length ts))) /\
  (forall x, written 10 t x -> 255 < x < 2 ^ 32 ->
     v4_from_str (separated "." (ts ++ t :: us)) = RErr (ChunkOutOfRange (List.length ts) x 0 255)) /\
  (t <> [] -> (forall x, written 10 t x -> 2 ^ 32 <= x) ->
     exists e, v4_from_str (separated "." (ts ++ t :: us)) = RErr (ChunkParseError (List.length ts) t e)).
Proof.
  intros ts us t xs Hl Hd Hf. unfold v4_from_str.
  rewrite split_of_separated by (assumption || now destruct ts).
  rewrite Hl. cbn [Nat.eqb negb]. rewrite (v4_loop_good _ _ Hf). cbn [Nat.add]. repeat split.
  - now intros ->.
  - intros x Hx Hr. cbn [v4_parse_loop]. pose proof (written_nonempty _ _ _ Hx).
    destruct t as [|c t]; [congruence|]. rewrite (parse_ok _ x) by (assumption || (change (2 ^ 32) with 4294967296 in Hr; unfold u32_max; lia)).
    cbn [map_err rbind]. destruct (N.ltb_spec 255 x); [reflexivity|lia].
  - intros Hne Hx. cbn [v4_parse_loop]. destruct t as [|c t]; [congruence|].
    destruct (parse_uint 10 u32_max (c :: t)) as [x|e] eqn:E; cbn [map_err rbind]; [|now exists e].
    apply parse_uint_spec in E; [|auto]. destruct E as [Hw Hm]. apply Hx in Hw.
    change (2 ^ 32) with 4294967296 in Hw. unfold u32_max in Hm. lia.
Qed.

(** ** IPv6: the parser *)
Definition parses (g : N) (t : str) : Prop := parse_uint 16 u16_max t = ROk g.

Lemma parses_group g t : parses g t <-> group_text g t.
Proof. apply parse_uint_spec. auto. Qed.

Lemma parses_groups gs ts : Forall2 parses gs ts <-> Forall2 group_text gs ts.
Proof.
  split; induction 1; constructor; try assumption; now apply parses_group.
Qed.

Lemma value_loop_spec ts : List.length ts = 8%nat ->
  (exists gs, Forall2 parses gs ts /\
     v6_value_loop 8 0 ts 0 0 = Ret (match v6_from_chunks gs with Some a => ROk a | None => RErr UnknownAddressType end)) \/
  ((forall gs, ~ Forall2 parses gs ts) /\ exists e, v6_value_loop 8 0 ts 0 0 = Ret (RErr e)).
Proof.
  intros Hl. destruct ts as [|t0 [|t1 [|t2 [|t3 [|t4 [|t5 [|t6 [|t7 [|? ?]]]]]]]]]; cbn in Hl; try lia. clear Hl.
  cbn [v6_value_loop index unwrap nth_error bind Nat.ltb Nat.leb].
  assert (forall t, (exists g, parses g t) \/ (exists e, parse_uint 16 u16_max t = RErr e)) as D.
  { intros t. unfold parses. destruct (parse_uint 16 u16_max t); eauto. }
  Local Ltac bad H := right; split; [intros gs K; unfold parses in *;
      repeat match goal with X : Forall2 _ _ (_ :: _) |- _ => inversion X; clear X; subst end; congruence
    | rewrite H; eauto].
  destruct (D t0) as [[g0 G0]|[e E]]; [unfold parses in G0; rewrite G0; cbn [index unwrap nth_error bind]|bad E].
  destruct (D t1) as [[g1 G1]|[e E]]; [unfold parses in G1; rewrite G1; cbn [index unwrap nth_error bind]|bad E].
  destruct (D t2) as [[g2 G2]|[e E]]; [unfold parses in G2; rewrite G2; cbn [index unwrap nth_error bind]|bad E].
  destruct (D t3) as [[g3 G3]|[e E]]; [unfold parses in G3; rewrite G3; cbn [index unwrap nth_error bind]|bad E].
  destruct (D t4) as [[g4 G4]|[e E]]; [unfold parses in G4; rewrite G4; cbn [index unwrap nth_error bind]|bad E].
  destruct (D t5) as [[g5 G5]|[e E]]; [unfold parses in G5; rewrite G5; cbn [index unwrap nth_error bind]|bad E].
  destruct (D t6) as [[g6 G6]|[e E]]; [unfold parses in G6; rewrite G6; cbn [index unwrap nth_error bind]|bad E].
  destruct (D t7) as [[g7 G7]|[e E]]; [unfold parses in G7; rewrite G7; cbn [index unwrap nth_error bind]|bad E].
  left. exists [g0; g1; g2; g3; g4; g5; g6; g7]. split; [repeat (apply Forall2_cons; [assumption|]); constructor|].
  cbn [v6_from_chunks]. rewrite !N.lor_0_l. reflexivity.
Qed.

Lemma set_index_app {T} (a b : list T) y x : set_index (a ++ y :: b) (List.length a) x = Ret (a ++ x :: b).
Proof. induction a as [|z a IH]; cbn [List.app List.length set_index]; [reflexivity|]. now rewrite IH. Qed.

Lemma copy_front_spec ls : Forall (fun t : str => t <> []) ls -> forall rest pre suf,
  (List.length ls <= List.length suf)%nat -> (rest = [] \/ exists r, rest = [] :: r) ->
  v6_copy_front (ls ++ rest) (List.length pre) (pre ++ suf) = Ret (pre ++ ls ++ skipn (List.length ls) suf).
Proof.
  induction 1 as [|t ls Ht _ IH]; intros rest pre suf Hl Hr.
  - cbn [List.app List.length skipn]. destruct Hr as [->|(r & ->)]; reflexivity.
  - cbn [List.app v6_copy_front]. destruct t as [|c t]; [congruence|]. cbn [is_empty].
    destruct suf as [|y suf]; cbn [List.length] in Hl; [lia|].
    rewrite set_index_app. cbn [bind].
    specialize (IH rest (pre ++ [c :: t]) suf ltac:(lia) Hr).
    rewrite app_length in IH. cbn [List.length] in IH. rewrite Nat.add_1_r in IH.
    rewrite <- app_assoc in IH. cbn [List.app] in IH. rewrite IH. cbn [List.length skipn].
    now rewrite <- app_assoc.
Qed.

Lemma copy_back_spec ls : Forall (fun t : str => t <> []) ls -> forall rest pre suf,
  (List.length ls <= List.length pre)%nat -> (rest = [] \/ exists r, rest = [] :: r) ->
  v6_copy_back (ls ++ rest) (List.length suf) (pre ++ suf) =
    Ret (firstn (List.length pre - List.length ls) pre ++ rev ls ++ suf).
Proof.
  induction 1 as [|t ls Ht _ IH]; intros rest pre suf Hl Hr.
  - cbn [List.app List.length rev]. rewrite Nat.sub_0_r, firstn_all.
    destruct Hr as [->|(r & ->)]; reflexivity.
  - cbn [List.app v6_copy_back]. destruct t as [|c t]; [congruence|]. cbn [is_empty].
    destruct (@exists_last _ pre) as (p & y & ->); [intros ->; cbn in Hl; lia|].
    rewrite app_length in *. cbn [List.length] in *.
    rewrite app_length. cbn [List.length].
    destruct (Nat.ltb_spec (List.length p + 1 + List.length suf) (List.length suf + 1)); [lia|].
    replace (List.length p + 1 + List.length suf - List.length suf - 1)%nat with (List.length p) by lia.
    rewrite <- (app_assoc p [y] suf). cbn [List.app]. rewrite set_index_app. cbn [bind].
    specialize (IH rest p ((c :: t) :: suf) ltac:(lia) Hr). cbn [List.length] in IH.
    etransitivity; [exact IH|].
    f_equal. cbn [rev]. rewrite <- !app_assoc. cbn [List.app]. f_equal.
    replace (List.length p + 1 - S (List.length ls))%nat with (List.length p - List.length ls)%nat by lia.
    rewrite firstn_app. replace (List.length p - List.length ls - List.length p)%nat with 0%nat by lia.
    cbn [firstn]. now rewrite app_nil_r.
Qed.

Lemma one_empty ts : (List.length (filter is_empty ts) = 1)%nat ->
  exists ls rs : list str, ts = ls ++ [] :: rs /\ Forall (fun t : str => t <> []) ls /\ Forall (fun t : str => t <> []) rs.
Proof.
  induction ts as [|t ts IH]; cbn [filter]; [discriminate|]. destruct t as [|c t]; cbn [is_empty].
  - cbn [List.length]. intros E. exists [], ts. split; [reflexivity|]. split; [constructor|].
    clear IH. induction ts as [|u ts IH]; [constructor|]. cbn [filter] in E.
    destruct u as [|c u]; cbn [is_empty] in E; [cbn [List.length] in E; lia|]. constructor; [discriminate|auto].
  - intros E. destruct (IH E) as (ls & rs & -> & Hl & Hr). exists ((c :: t) :: ls), rs.
    repeat split; try assumption. constructor; [discriminate|assumption].
Qed.

Lemma no_empty ts : List.length (filter is_empty ts) = O <-> Forall (fun t : str => t <> []) ts.
Proof.
  induction ts as [|t ts IH]; cbn [filter]; [split; constructor|].
  destruct t as [|c t]; cbn [is_empty List.length].
  - split; [discriminate|]. intros H. now inversion H.
  - rewrite IH. split; [constructor; [discriminate|assumption]|]. intros H. now inversion H.
Qed.

Lemma count_empty ls rs : Forall (fun t : str => t <> []) ls -> Forall (fun t : str => t <> []) rs ->
  List.length (filter is_empty (ls ++ [] :: rs)) = 1%nat.
Proof.
  intros Hl Hr. rewrite filter_app, app_length. cbn [filter is_empty List.length].
  apply no_empty in Hl. apply no_empty in Hr. lia.
Qed.

Lemma padded_code s : padded s =
  (let addr_str := if starts_with_char ":" s then "0"%char :: s else s in
   if ends_with_char ":" addr_str then addr_str ++ lit "0" else addr_str).
Proof.
  unfold padded, starts_with_char, ends_with_char. cbv zeta.
  assert (forall c (x y : str), (match c with ":"%char => x | _ => y end) = if Ascii.eqb c ":" then x else y) as A.
  { intros c x y. destruct c as [b0 b1 b2 b3 b4 b5 b6 b7];
      destruct b0, b1, b2, b3, b4, b5, b6, b7; reflexivity. }
  destruct s as [|c s].
  - reflexivity.
  - rewrite A. destruct (Ascii.eqb c ":").
    + destruct (rev ("0"%char :: c :: s)); [reflexivity|apply A].
    + destruct (rev (c :: s)); [reflexivity|apply A].
Qed.

Lemma v6_from_str_eq s : v6_from_str s =
  (let chunks := split_on ":" (padded s) in
   if Nat.ltb 8 (List.length chunks)
   then Ret (RErr (IncorrectChunkCount (List.length chunks) 8))
   else
     let shortening_count := List.length (filter is_empty chunks) in
     if Nat.ltb 1 shortening_count
     then Ret (RErr (TooManyShorteningElements shortening_count 1))
     else if Nat.eqb shortening_count 0 then
       if negb (Nat.eqb (List.length chunks) 8)
       then Ret (RErr (IncorrectChunkCount (List.length chunks) 8))
       else v6_value_loop 8 0 chunks 0 0
     else
       actual <- v6_copy_front chunks 0 (repeat (lit "0") 8) ;;
       actual <- v6_copy_back (rev chunks) 0 actual ;;
       v6_value_loop 8 0 actual 0 0).
Proof. rewrite padded_code. reflexivity. Qed.

Lemma expand ls rs : Forall (fun t : str => t <> []) ls -> Forall (fun t : str => t <> []) rs ->
  (List.length ls + List.length rs <= 7)%nat ->
  (actual <- v6_copy_front (ls ++ [] :: rs) 0 (repeat (lit "0") 8) ;;
   actual <- v6_copy_back (rev (ls ++ [] :: rs)) 0 actual ;;
   v6_value_loop 8 0 actual 0 0) =
  v6_value_loop 8 0 (ls ++ repeat (lit "0") (8 - List.length ls - List.length rs) ++ rs) 0 0.
Proof.
  intros Hl Hr Hn.
  pose proof (copy_front_spec ls Hl ([] :: rs) [] (repeat (lit "0") 8)) as F.
  rewrite repeat_length in F. specialize (F ltac:(lia) (or_intror (ex_intro _ rs eq_refl))).
  change (v6_copy_front (ls ++ [] :: rs) 0 (repeat (lit "0") 8) =
          Ret (ls ++ skipn (List.length ls) (repeat (lit "0") 8))) in F.
  rewrite F. cbn [bind].
  rewrite rev_app_distr. cbn [rev]. rewrite <- app_assoc. cbn [List.app].
  set (mid := ls ++ skipn (List.length ls) (repeat (lit "0") 8)).
  assert (mid = ls ++ repeat (lit "0") (8 - List.length ls)) as Em.
  { unfold mid. f_equal. clear. remember (List.length ls) as k. clear Heqk.
    do 9 (destruct k as [|k]; [reflexivity|]). cbn [repeat]. now rewrite !skipn_nil || (cbn; now rewrite ?skipn_nil). }
  assert (List.length mid = 8%nat) as Lm by (rewrite Em, app_length, repeat_length; lia).
  pose proof (copy_back_spec (rev rs) (Forall_rev Hr) ([] :: rev ls) mid []) as C.
  rewrite !app_nil_r, rev_involutive, rev_length in C. cbn [List.length] in C.
  specialize (C ltac:(lia) (or_intror (ex_intro _ (rev ls) eq_refl))).
  match goal with |- context [v6_copy_back ?x 0 mid] =>
    match type of C with _ = ?r => assert (v6_copy_back x 0 mid = r) as C' by exact C; rewrite C' end end.
  cbn [bind]. f_equal.
  rewrite Lm, Em, app_assoc. f_equal. rewrite firstn_app.
  rewrite firstn_all2 by lia. f_equal.
  assert (forall n m (x : str), (n <= m)%nat -> firstn n (repeat x m) = repeat x n) as A.
  { induction n as [|n IH]; intros m x Hm; [reflexivity|]. destruct m; [lia|]. cbn [repeat firstn]. f_equal. apply IH. lia. }
  rewrite A by lia. f_equal. lia.
Qed.

(** The three ways the parser goes on after splitting. *)
Lemma v6_cases s :
  (exists e, v6_from_str s = Ret (RErr e) /\
     ~ (List.length (split_on ":" (padded s)) = 8%nat /\ Forall (fun t : str => t <> []) (split_on ":" (padded s))) /\
     ~ (exists ls rs : list str, split_on ":" (padded s) = ls ++ [] :: rs /\
          Forall (fun t : str => t <> []) ls /\ Forall (fun t : str => t <> []) rs /\
          (List.length ls + List.length rs <= 7)%nat)) \/
  (List.length (split_on ":" (padded s)) = 8%nat /\ Forall (fun t : str => t <> []) (split_on ":" (padded s)) /\
   v6_from_str s = v6_value_loop 8 0 (split_on ":" (padded s)) 0 0) \/
  (exists ls rs : list str, split_on ":" (padded s) = ls ++ [] :: rs /\
     Forall (fun t : str => t <> []) ls /\ Forall (fun t : str => t <> []) rs /\
     (List.length ls + List.length rs <= 7)%nat /\
     v6_from_str s = v6_value_loop 8 0 (ls ++ repeat (lit "0") (8 - List.length ls - List.length rs) ++ rs) 0 0).
Proof.
  rewrite v6_from_str_eq. cbv zeta. set (ts := split_on ":" (padded s)). clearbody ts.
  destruct (Nat.ltb_spec 8 (List.length ts)) as [H8|H8].
  { left. eexists. split; [reflexivity|]. split; [lia|].
    intros (ls & rs & -> & _ & _ & Hn). rewrite app_length in H8. cbn [List.length] in H8. lia. }
  destruct (Nat.ltb_spec 1 (List.length (filter is_empty ts))) as [H1|H1].
  { left. eexists. split; [reflexivity|]. split.
    - intros [_ K]. apply no_empty in K. lia.
    - intros (ls & rs & -> & Hl & Hr & Hn). rewrite count_empty in H1 by assumption. lia. }
  destruct (Nat.eqb_spec (List.length (filter is_empty ts)) 0) as [H0|H0].
  - destruct (Nat.eqb_spec (List.length ts) 8) as [Hl|Hl]; cbn [negb].
    + right. left. repeat split; try assumption. now apply no_empty.
    + left. eexists. split; [reflexivity|]. split; [lia|].
      intros (ls & rs & -> & Hl' & Hr & Hn). rewrite count_empty in H0 by assumption. lia.
  - destruct (one_empty ts) as (ls & rs & -> & Hl & Hr); [lia|].
    rewrite app_length in H8. cbn [List.length] in H8. right. right. exists ls, rs.
    repeat split; try assumption; [lia|]. apply (expand ls rs); assumption || slia.
Qed.

Lemma value_loop_returns ts : List.length ts = 8%nat -> exists r, v6_value_loop 8 0 ts 0 0 = Ret r.
Proof.
  intros H. destruct (value_loop_spec ts H) as [(gs & _ & E)|(_ & e & E)]; rewrite E; eauto.
Qed.

Lemma short_len ls rs : (List.length ls + List.length rs <= 7)%nat ->
  List.length (ls ++ repeat (lit "0") (8 - List.length ls - List.length rs) ++ rs) = 8%nat.
Proof. intros H. rewrite !app_length, repeat_length. lia. Qed.

Lemma c05_returns : forall (s : str), exists r, v6_from_str s = Ret r.
Proof.
  intros s. destruct (v6_cases s) as [(e & E & _)|[(Hl & _ & E)|(ls & rs & _ & _ & _ & Hn & E)]]; rewrite E; eauto.
  - now apply value_loop_returns.
  - apply value_loop_returns. now apply short_len.
Qed.

Lemma group_no_colon g t : group_text g t -> ~ In ":"%char t.
Proof. intros [H _]. eapply written_not_in; [..|exact H]; [reflexivity|discriminate]. Qed.
Lemma group_nonempty g t : group_text g t -> t <> [].
Proof. intros [H _]. eapply written_nonempty; exact H. Qed.
Lemma groups_no_colon gs ts : Forall2 group_text gs ts -> Forall (fun t : str => ~ In ":"%char t) ts.
Proof. induction 1; constructor; eauto using group_no_colon. Qed.
Lemma groups_nonempty gs ts : Forall2 group_text gs ts -> Forall (fun t : str => t <> []) ts.
Proof. induction 1; constructor; eauto using group_nonempty. Qed.
Lemma groups_u16 gs ts : Forall2 group_text gs ts -> u16s gs.
Proof. induction 1 as [|g t gs ts [_ H]]; constructor; [lia|assumption]. Qed.

Lemma has_groups_unique a gs hs : has_groups a gs -> has_groups a hs -> gs = hs.
Proof.
  intros (Ha & Hl & Hu & Hv) (_ & Hl' & Hu' & Hv').
  destruct (c06_address_of_groups gs Hu Hl) as (b & _ & Hb & Hvb & Eb).
  destruct (c06_address_of_groups hs Hu' Hl') as (c & _ & Hc & Hvc & Ec).
  assert (b = c) as <-; [|congruence].
  assert (value b = value c) as E by congruence. clear -Hb Hc E.
  destruct b as [bt bb], c as [ct cb]. cbn [value valid top_half bottom_half] in *.
  assert (bt = ct /\ bb = cb) as [-> ->]; [|reflexivity].
  change (2 ^ 64) with 18446744073709551616 in *. nia.
Qed.

Lemma chunks_has_groups a : valid (F := V6) a -> has_groups a (v6_to_chunks a).
Proof. intros Ha. destruct (c06_groups_of_address a Ha) as (Hl & Hu & Hv). repeat split; auto; apply Ha. Qed.

Lemma has_groups_chunks a gs : has_groups a gs -> v6_to_chunks a = gs /\ v6_from_chunks gs = Some a.
Proof.
  intros H. assert (v6_to_chunks a = gs) as <-.
  { eapply has_groups_unique; [|exact H]. apply chunks_has_groups. apply H. }
  split; [reflexivity|]. apply c06_groups_roundtrip. apply H.
Qed.

Lemma from_groups gs : u16s gs -> List.length gs = 8%nat ->
  exists a, v6_from_chunks gs = Some a /\ has_groups a gs.
Proof.
  intros Hu Hl. destruct (c06_address_of_groups gs Hu Hl) as (a & E & Ha & Hv & _). exists a.
  split; [exact E|]. now repeat split; try apply Ha.
Qed.

Lemma value_loop_ok ts a : List.length ts = 8%nat ->
  v6_value_loop 8 0 ts 0 0 = Ret (ROk a) <-> exists gs, Forall2 group_text gs ts /\ has_groups a gs.
Proof.
  intros Hl. destruct (value_loop_spec ts Hl) as [(gs & Hf & E)|(Hf & e & E)]; rewrite E.
  - pose proof (Forall2_len _ _ _ Hf) as Hg. apply parses_groups in Hf.
    destruct (from_groups gs (groups_u16 _ _ Hf)) as (b & Eb & Hb); [congruence|]. rewrite Eb. split.
    + intros K. inversion K; subst. eauto.
    + intros (hs & Hf' & Ha). assert (hs = gs) as ->.
      { clear -Hf Hf'. apply parses_groups in Hf, Hf'. revert hs Hf'. induction Hf; intros hs Hf'; inversion Hf'; subst; [reflexivity|].
        f_equal; [|auto]. unfold parses in *. congruence. }
      apply has_groups_chunks in Ha, Hb. destruct Ha as [_ Ha], Hb as [_ Hb]. congruence.
  - split; [discriminate|]. intros (gs & K & _). apply parses_groups in K. now apply Hf in K.
Qed.

Lemma group_text_zero : group_text 0 (lit "0").
Proof. split; [left; reflexivity|lia]. Qed.

Lemma zeros_text n : Forall2 group_text (repeat 0 n) (repeat (lit "0") n).
Proof. induction n; constructor; auto using group_text_zero. Qed.

Lemma padded_head s : forall t, padded s <> ":"%char :: t.
Proof.
  intros t. rewrite padded_code. cbv zeta. destruct (starts_with_char ":" s) eqn:E.
  - destruct (ends_with_char ":" ("0"%char :: s)); discriminate.
  - destruct s as [|c s]; [discriminate|]. cbn [starts_with_char] in E.
    destruct (Ascii.eqb_spec c ":"); [discriminate|].
    destruct (ends_with_char ":" (c :: s)); intros K; inversion K; congruence.
Qed.

Lemma padded_last s : forall t, padded s <> t ++ [":"%char].
Proof.
  intros t. rewrite padded_code. cbv zeta. set (s' := if starts_with_char ":" s then _ else _).
  destruct (ends_with_char ":" s') eqn:E.
  - intros K. apply app_inj_tail in K. destruct K as [_ K]. discriminate.
  - intros K. rewrite K in E. unfold ends_with_char in E. rewrite rev_app_distr in E. discriminate.
Qed.

Lemma padded_nil s : padded s = [] -> s = [].
Proof.
  rewrite padded_code. cbv zeta. destruct s as [|c s]; [reflexivity|]. cbn [starts_with_char].
  destruct (Ascii.eqb c ":").
  - destruct (ends_with_char ":" ("0"%char :: c :: s)); discriminate.
  - destruct (ends_with_char ":" (c :: s)); discriminate.
Qed.

(** Groups around a double colon, as chunks. *)
Lemma short_chunks ls rs : ls <> [] -> rs <> [] ->
  separated ":" ls ++ lit "::" ++ separated ":" rs = separated ":" (ls ++ [] :: rs).
Proof.
  intros Hl Hr. rewrite separated_app by (assumption || discriminate). f_equal.
  cbn [separated]. destruct rs; [congruence|]. reflexivity.
Qed.

Lemma Forall2_app_r {A B} (P : A -> B -> Prop) gs l r : Forall2 P gs (l ++ r) ->
  exists gl gr, gs = gl ++ gr /\ Forall2 P gl l /\ Forall2 P gr r.
Proof.
  intros H. apply Forall2_app_inv_r in H. destruct H as (gl & gr & Hl & Hr & E). exists gl, gr. auto.
Qed.

Lemma c05_accepts : forall (s : str) (a : addr V6),
  v6_from_str s = Ret (ROk a) <-> v6_text s a.
Proof.
  intros s a. split.
  - intros E. destruct (v6_cases s) as [(e & E' & _)|[(Hl & Hne & E')|(ls & rs & Es & Hl & Hr & Hn & E')]]; rewrite E' in E.
    + discriminate.
    + apply value_loop_ok in E; [|assumption]. destruct E as (gs & Hf & Ha). exists gs. split; [exact Ha|].
      left. exists (split_on ":" (padded s)). repeat split; try assumption. symmetry. apply split_separated.
    + apply value_loop_ok in E; [|now apply short_len]. destruct E as (gs & Hf & Ha). exists gs. split; [exact Ha|].
      apply Forall2_app_r in Hf. destruct Hf as (l & m & -> & Fl & Hf).
      apply Forall2_app_r in Hf. destruct Hf as (z & r & -> & Fz & Fr).
      pose proof (Forall2_len _ _ _ Fl) as El. pose proof (Forall2_len _ _ _ Fr) as Er.
      assert (z = repeat 0 (8 - List.length l - List.length r)) as ->.
      { rewrite El, Er. clear -Fz. remember (8 - List.length ls - List.length rs)%nat as n. clear Heqn.
        revert z Fz. induction n; intros z Fz; inversion Fz; subst; cbn [repeat]; [reflexivity|]. f_equal; [|auto].
        apply parses_group in H2. unfold parses in H2. vm_compute in H2. now inversion H2. }
      pose proof (split_separated ":" (padded s)) as P. rewrite Es in P.
      destruct ls as [|l0 ls].
      { destruct rs as [|r0 rs].
        - right. right. cbn in P. split; [now apply padded_nil|]. inversion Fl; inversion Fr; subst. reflexivity.
        - exfalso. cbn [List.app separated] in P. symmetry in P. now apply padded_head in P. }
      destruct rs as [|r0 rs].
      { exfalso. rewrite separated_app in P by discriminate. cbn [separated] in P. symmetry in P.
        now apply padded_last in P. }
      right. left. exists l, r. split; [now intros ->|]. split; [now intros ->|]. split; [congruence|].
      exists (l0 :: ls), (r0 :: rs). repeat split; try assumption. rewrite short_chunks by discriminate. congruence.
  - intros (gs & Ha & [(ts & Hl & Hf & Es)|[(l & r & Hl & Hr & Hn & ls & rs & Fl & Fr & Es & ->)|(-> & ->)]]).
    + assert (split_on ":" (padded s) = ts) as Ets.
      { rewrite Es. apply split_of_separated; [now destruct ts|]. now apply groups_no_colon in Hf. }
      rewrite v6_from_str_eq. cbv zeta. rewrite Ets, Hl.
      assert (Forall (fun t : str => t <> []) ts) as Hne by (now apply groups_nonempty in Hf).
      apply no_empty in Hne. rewrite Hne. cbn [Nat.ltb Nat.leb Nat.eqb negb].
      apply value_loop_ok; [assumption|]. eauto.
    + pose proof (Forall2_len _ _ _ Fl) as El. pose proof (Forall2_len _ _ _ Fr) as Er.
      assert (ls <> []) as Hls by (intros ->; now destruct l).
      assert (rs <> []) as Hrs by (intros ->; now destruct r).
      rewrite short_chunks in Es by assumption.
      pose proof (groups_nonempty _ _ Fl) as Nl. pose proof (groups_nonempty _ _ Fr) as Nr.
      assert (split_on ":" (padded s) = ls ++ [] :: rs) as Ets.
      { rewrite Es. apply split_of_separated; [now destruct ls|].
        apply Forall_app. split; [now apply groups_no_colon in Fl|].
        constructor; [intros []|now apply groups_no_colon in Fr]. }
      rewrite v6_from_str_eq. cbv zeta. rewrite Ets, count_empty by assumption.
      rewrite app_length. cbn [List.length].
      destruct (Nat.ltb_spec 8 (List.length ls + S (List.length rs))); [lia|].
      cbn [Nat.ltb Nat.leb Nat.eqb]. rewrite expand by (assumption || lia).
      apply value_loop_ok; [apply short_len; lia|]. eexists. split; [|exact Ha].
      apply Forall2_app; [assumption|]. apply Forall2_app; [|assumption].
      rewrite El, Er. apply zeros_text.
    + apply has_groups_chunks in Ha. destruct Ha as [_ Ha]. vm_compute in Ha. inversion Ha. vm_compute. reflexivity.
Qed.

Lemma sep_head ts : ts <> [] -> Forall (fun t : str => t <> []) ts -> Forall (fun t : str => ~ In ":"%char t) ts ->
  forall t, separated ":" ts <> ":"%char :: t.
Proof.
  intros Hne H1 H2 t E. destruct ts as [|x ts]; [congruence|].
  apply Forall_inv in H1. apply Forall_inv in H2.
  destruct x as [|c x]; [congruence|]. cbn [separated] in E.
  assert (c = ":"%char) as -> by (destruct ts; inversion E; reflexivity). apply H2. now left.
Qed.

Lemma sep_last ts : ts <> [] -> Forall (fun t : str => t <> []) ts -> Forall (fun t : str => ~ In ":"%char t) ts ->
  forall t, separated ":" ts <> t ++ [":"%char].
Proof.
  intros Hne H1 H2 t E. destruct (exists_last Hne) as (us & x & ->).
  apply Forall_app in H1, H2. destruct H1 as [_ H1], H2 as [_ H2].
  apply Forall_inv in H1. apply Forall_inv in H2.
  assert (exists p, separated ":" (us ++ [x]) = p ++ x) as (p & Ep).
  { destruct us as [|u us]; [exists []; reflexivity|]. rewrite separated_app by discriminate.
    exists (separated ":" (u :: us) ++ [":"%char]). now rewrite <- app_assoc. }
  rewrite Ep in E. destruct (exists_last H1) as (x' & c & ->). rewrite app_assoc in E.
  apply app_inj_tail in E. destruct E as [_ ->]. apply H2. apply in_or_app. right. now left.
Qed.

Lemma padded_id s : (forall t, s <> ":"%char :: t) -> (forall t, s <> t ++ [":"%char]) -> padded s = s.
Proof.
  intros H1 H2. rewrite padded_code. cbv zeta.
  assert (starts_with_char ":" s = false) as ->.
  { destruct s as [|c s]; [reflexivity|]. cbn [starts_with_char].
    destruct (Ascii.eqb_spec c ":") as [->|]; [|reflexivity]. now destruct (H1 s). }
  assert (ends_with_char ":" s = false) as ->; [|reflexivity].
  destruct s as [|c s]; [reflexivity|].
  destruct (@exists_last _ (c :: s)) as (u & x & E); [discriminate|]. rewrite E in *.
  unfold ends_with_char. rewrite rev_app_distr. cbn [rev List.app starts_with_char].
  destruct (Ascii.eqb_spec x ":") as [->|]; [|reflexivity]. now destruct (H2 u).
Qed.

Lemma c05_full_form : forall (s : str) (gs : list N),
  v6_full s gs -> exists a, has_groups a gs /\ v6_from_str s = Ret (ROk a).
Proof.
  intros s gs H. pose proof H as H0. destruct H as (ts & Hl & Hf & E).
  pose proof (groups_nonempty _ _ Hf) as Hn. pose proof (groups_no_colon _ _ Hf) as Hc.
  assert (ts <> []) as Ht by (now destruct ts).
  destruct (from_groups gs (groups_u16 _ _ Hf)) as (a & _ & Ha).
  { rewrite <- Hl. now apply Forall2_len in Hf. }
  exists a. split; [exact Ha|]. apply c05_accepts. exists gs. split; [exact Ha|]. left.
  rewrite padded_id; [exact H0|subst s; now apply sep_head|subst s; now apply sep_last].
Qed.

Definition pad_list {T} (z : T) (l : list T) : list T := match l with [] => [z] | _ => l end.

Lemma pad_groups l ls : Forall2 group_text l ls -> Forall2 group_text (pad_list 0 l) (pad_list (lit "0") ls).
Proof.
  intros H. destruct H; cbn [pad_list].
  - constructor; [apply group_text_zero|constructor].
  - now constructor.
Qed.

Lemma padded_short l ls r rs : Forall2 group_text l ls -> Forall2 group_text r rs ->
  padded (separated ":" ls ++ lit "::" ++ separated ":" rs) =
  separated ":" (pad_list (lit "0") ls) ++ lit "::" ++ separated ":" (pad_list (lit "0") rs).
Proof.
  intros Fl Fr.
  pose proof (groups_nonempty _ _ Fl) as Hln. pose proof (groups_no_colon _ _ Fl) as Hlc.
  pose proof (groups_nonempty _ _ Fr) as Hrn. pose proof (groups_no_colon _ _ Fr) as Hrc.
  rewrite padded_code. cbv zeta.
  set (s := separated ":" ls ++ lit "::" ++ separated ":" rs).
  assert ((if starts_with_char ":" s then "0"%char :: s else s) =
          separated ":" (pad_list (lit "0") ls) ++ lit "::" ++ separated ":" rs) as ->.
  { unfold s. destruct ls as [|t ls]; [reflexivity|]. cbn [pad_list].
    assert (exists c u, separated ":" (t :: ls) = c :: u /\ c <> ":"%char) as (c & u & E & Hc).
    { pose proof (sep_head (t :: ls) ltac:(discriminate) Hln Hlc) as K.
      destruct (separated ":" (t :: ls)) as [|c u] eqn:E.
      - apply separated_nil in E; [discriminate|assumption].
      - exists c, u. split; [reflexivity|]. intros ->. now apply (K u). }
    rewrite E. cbn [List.app starts_with_char]. destruct (Ascii.eqb_spec c ":"); [congruence|reflexivity]. }
  clear s. set (s := separated ":" (pad_list (lit "0") ls) ++ lit "::").
  rewrite !(app_assoc (separated ":" (pad_list (lit "0") ls))). fold s.
  destruct rs as [|t rs].
  - cbn [separated pad_list]. rewrite app_nil_r. unfold s, ends_with_char.
    rewrite rev_app_distr. cbn [lit list_ascii_of_string rev List.app starts_with_char]. rewrite Ascii.eqb_refl.
    reflexivity.
  - cbn [pad_list].
    assert (exists u c, separated ":" (t :: rs) = u ++ [c] /\ c <> ":"%char) as (u & c & E & Hc).
    { pose proof (sep_last (t :: rs) ltac:(discriminate) Hrn Hrc) as K.
      destruct (@exists_last _ (separated ":" (t :: rs))) as (u & c & E).
      - intros E. apply separated_nil in E; [discriminate|assumption].
      - exists u, c. split; [exact E|]. intros ->. now apply (K u). }
    rewrite E. unfold ends_with_char. rewrite !rev_app_distr. cbn [rev List.app starts_with_char].
    destruct (Ascii.eqb_spec c ":"); [congruence|reflexivity].
Qed.

Lemma repeat_app_one {T} (x : T) n : repeat x (S n) = repeat x n ++ [x].
Proof. induction n as [|n IH]; [reflexivity|]. cbn [repeat List.app] in *. now rewrite <- IH. Qed.

Lemma short_valid l r : u16s l -> u16s r -> (List.length l + List.length r <= 8)%nat ->
  exists a, has_groups a (l ++ repeat 0 (8 - List.length l - List.length r) ++ r).
Proof.
  intros Hl Hr Hn. destruct (from_groups (l ++ repeat 0 (8 - List.length l - List.length r) ++ r)) as (a & _ & Ha).
  - unfold u16s. apply Forall_app. split; [assumption|]. apply Forall_app. split; [|assumption].
    generalize (8 - List.length l - List.length r)%nat. induction n; constructor; [lia|assumption].
  - rewrite !app_length, repeat_length. lia.
  - now exists a.
Qed.

Lemma c05_short_form : forall (s : str) (l r gs : list N),
  v6_short s l r gs -> (List.length l + List.length r <= 7)%nat ->
  (l = [] -> List.length r <= 6)%nat -> (r = [] -> List.length l <= 6)%nat ->
  exists a, has_groups a gs /\ v6_from_str s = Ret (ROk a).
Proof.
  intros s l r gs (ls & rs & Fl & Fr & -> & ->) Hn Hl Hr.
  destruct (short_valid l r (groups_u16 _ _ Fl) (groups_u16 _ _ Fr)) as (a & Ha); [lia|].
  exists a. split; [exact Ha|]. apply c05_accepts. eexists. split; [exact Ha|]. right. left.
  exists (pad_list 0 l), (pad_list 0 r). split; [now destruct l|]. split; [now destruct r|].
  assert (forall T (z : T) (x : list T), List.length (pad_list z x) = Nat.max 1 (List.length x)) as A by (now destruct x).
  rewrite !A. split.
  { destruct l, r; cbn [List.length] in *; try specialize (Hl eq_refl); try specialize (Hr eq_refl); lia. }
  exists (pad_list (lit "0") ls), (pad_list (lit "0") rs).
  split; [now apply pad_groups|]. split; [now apply pad_groups|]. split; [now apply (padded_short l _ r)|].
  rewrite !A. destruct l as [|x l], r as [|y r]; cbn [pad_list List.length List.app Nat.max] in *.
  - reflexivity.
  - specialize (Hl eq_refl). replace (8 - 0 - S (List.length r))%nat with (S (8 - 1 - S (List.length r))) by lia. reflexivity.
  - specialize (Hr eq_refl). replace (8 - S (List.length l) - 0)%nat with (S (8 - S (List.length l) - 1)) by lia.
    rewrite repeat_app_one, app_nil_r. reflexivity.
  - replace (Nat.max 1 (S (List.length l))) with (S (List.length l)) by lia.
    replace (Nat.max 1 (S (List.length r))) with (S (List.length r)) by lia. reflexivity.
Qed.

Lemma c05_short_form_at_edge_rejected : forall (s : str) (l r gs : list N),
  v6_short s l r gs -> (List.length l + List.length r = 7)%nat -> l = [] \/ r = [] ->
  v6_from_str s = Ret (RErr (IncorrectChunkCount 9 8)).
Proof.
  intros s l r gs (ls & rs & Fl & Fr & -> & ->) Hn He.
  pose proof (Forall2_len _ _ _ Fl) as El. pose proof (Forall2_len _ _ _ Fr) as Er.
  rewrite v6_from_str_eq. cbv zeta. rewrite (padded_short l _ r) by assumption.
  pose proof (pad_groups _ _ Fl) as Pl. pose proof (pad_groups _ _ Fr) as Pr.
  rewrite short_chunks by (first [now destruct ls | now destruct rs]).
  rewrite split_of_separated.
  - rewrite app_length. cbn [List.length].
    assert (List.length (pad_list (lit "0") ls) + List.length (pad_list (lit "0") rs) = 8)%nat as E8.
    { assert (forall T (z : T) (x : list T), List.length (pad_list z x) = Nat.max 1 (List.length x)) as A by (now destruct x).
      rewrite !A. destruct He as [->| ->]; cbn [List.length] in *; slia. }
    replace (List.length (pad_list (lit "0") ls) + S (List.length (pad_list (lit "0") rs)))%nat with 9%nat by slia.
    reflexivity.
  - now destruct ls.
  - apply Forall_app. split; [now apply groups_no_colon in Pl|]. constructor; [intros []|]. now apply groups_no_colon in Pr.
Qed.

Lemma c05_only_proper_forms_refuted : exists (s : str) (a : addr V6),
  v6_from_str s = Ret (ROk a) /\
  ~ (exists gs, v6_full s gs) /\ ~ (exists l r gs, v6_short s l r gs).
Proof.
  exists (lit ":2:3:4:5:6:7:8"), (ip6 0 2 3 4 5 6 7 8). split; [vm_compute; reflexivity|]. split.
  - intros (gs & ts & Hl & Hf & E).
    pose proof (groups_nonempty _ _ Hf) as Hn. pose proof (groups_no_colon _ _ Hf) as Hc.
    apply (sep_head ts) with (t := lit "2:3:4:5:6:7:8") in Hn; auto. now destruct ts.
  - intros (l & r & gs & ls & rs & Fl & Fr & E & _).
    assert (forall u v : str, lit ":2:3:4:5:6:7:8" <> u ++ lit "::" ++ v) as A.
    { intros u v E0.
      do 14 (destruct u as [|? u]; [cbn in E0; discriminate|cbn in E0; injection E0 as _ E0]).
      destruct u; discriminate. }
    now apply A in E.
Qed.

(** ** IPv6: Display *)
Definition pat (gs : list N) : list N := map (fun g => if g =? 0 then 0 else 1) gs.

Lemma nth_pat gs i : (nth i (pat gs) 0 =? 0) = (nth i gs 0 =? 0).
Proof.
  unfold pat. revert i. induction gs as [|g gs IH]; intros [|i]; cbn [map nth]; try reflexivity.
  - destruct (N.eqb_spec g 0); reflexivity.
  - apply IH.
Qed.

Lemma run_end_pat f gs j : v6_run_end f (pat gs) j = v6_run_end f gs j.
Proof.
  revert j. induction f as [|f IH]; intros j; cbn [v6_run_end]; [reflexivity|].
  rewrite nth_pat, IH. reflexivity.
Qed.

Lemma scan_pat f gs i zi zl : v6_scan f (pat gs) i zi zl = v6_scan f gs i zi zl.
Proof.
  revert i zi zl. induction f as [|f IH]; intros i zi zl; cbn [v6_scan]; [reflexivity|].
  rewrite nth_pat, run_end_pat, !IH. reflexivity.
Qed.

Definition zrb (gs : list N) (z k : nat) : bool :=
  Nat.leb 1 k && Nat.leb (z + k) 8 && forallb (fun i => nth i gs 0 =? 0) (seq z k).

Lemma zrb_pat gs z k : zrb (pat gs) z k = zrb gs z k.
Proof.
  unfold zrb. f_equal. induction (seq z k) as [|i l IH]; cbn [forallb]; [reflexivity|].
  now rewrite nth_pat, IH.
Qed.

Lemma zrb_spec gs z k : List.length gs = 8%nat -> zero_run gs z k <-> zrb gs z k = true.
Proof.
  intros Hl. unfold zrb, zero_run. rewrite !andb_true_iff, forallb_forall, !Nat.leb_le.
  split.
  - intros (H1 & H2 & H3). repeat split; try assumption. intros i Hi. apply in_seq in Hi.
    apply N.eqb_eq. specialize (H3 i Hi). now apply nth_error_nth with (d := 0) in H3.
  - intros ((H1 & H2) & H3). repeat split; try assumption. intros i Hi.
    rewrite (nth_error_nth' gs 0) by lia. f_equal. apply N.eqb_eq. apply H3. now apply in_seq.
Qed.

Definition scan_ok (ns : list N) : bool :=
  match v6_scan 9 ns 0 None 0 with
  | (None, l) => forallb (fun i => negb (zrb ns i 1)) (seq 0 8)
  | (Some z, k) => zrb ns z k &&
      forallb (fun z' => forallb (fun k' =>
        implb (zrb ns z' k') (Nat.ltb k' k || (Nat.eqb k' k && Nat.leb z z'))) (seq 1 8)) (seq 0 8)
  end.

Fixpoint pats (n : nat) : list (list N) :=
  match n with O => [[]] | S n => map (cons 0) (pats n) ++ map (cons 1) (pats n) end.

Lemma pat_in gs : In (pat gs) (pats (List.length gs)).
Proof.
  induction gs as [|g gs IH]; [now left|]. cbn [pat map List.length pats]. apply in_or_app.
  destruct (g =? 0); [left|right]; now apply in_map.
Qed.

Lemma scan_ok_all : forallb scan_ok (pats 8) = true.
Proof. vm_compute. reflexivity. Qed.

Lemma scan_spec gs : List.length gs = 8%nat ->
  match v6_scan 9 gs 0 None 0 with
  | (None, l) => Forall (fun g => g <> 0) gs
  | (Some z, k) => first_longest_run gs z k
  end.
Proof.
  intros Hl. pose proof scan_ok_all as A. rewrite forallb_forall in A.
  specialize (A (pat gs)). rewrite <- Hl in A. specialize (A (pat_in gs)). unfold scan_ok in A.
  rewrite scan_pat in A. destruct (v6_scan 9 gs 0 None 0) as [[z|] k].
  - apply andb_true_iff in A. destruct A as [A1 A2]. rewrite zrb_pat in A1.
    split; [now apply zrb_spec|]. intros z' k' H.
    pose proof H as (K1 & K2 & _). apply zrb_spec in H; [|assumption].
    rewrite forallb_forall in A2. specialize (A2 z'). rewrite forallb_forall in A2.
    specialize (A2 ltac:(apply in_seq; lia) k' ltac:(apply in_seq; lia)).
    rewrite zrb_pat, H in A2. cbn [implb] in A2.
    apply orb_true_iff in A2. rewrite andb_true_iff, Nat.ltb_lt, Nat.eqb_eq, Nat.leb_le in A2. lia.
  - rewrite forallb_forall in A. apply Forall_forall. intros g Hg E. subst g.
    apply In_nth_error in Hg. destruct Hg as (i & Hi).
    assert (i < 8)%nat as Hi8 by (rewrite <- Hl; apply nth_error_Some; congruence).
    specialize (A i ltac:(apply in_seq; lia)). rewrite zrb_pat in A.
    assert (zrb gs i 1 = true) as K; [|rewrite K in A; discriminate].
    apply zrb_spec; [assumption|]. repeat split; try lia. intros j Hj. now replace j with i by lia.
Qed.

Lemma run_unique gs z k z' k' : first_longest_run gs z k -> first_longest_run gs z' k' -> z = z' /\ k = k'.
Proof. intros [R1 M1] [R2 M2]. apply M1 in R2. apply M2 in R1. lia. Qed.

Lemma run_bounds gs z k : first_longest_run gs z k -> (1 <= k /\ z + k <= 8)%nat.
Proof. intros [(H1 & H2 & _) _]. lia. Qed.

Lemma display_zero a gs : has_groups a gs -> (top_half a =? 0) && (bottom_half a =? 0) = true ->
  gs = repeat 0 8 /\ v6_display a = lit "::".
Proof.
  intros H E. pose proof E as E0. apply andb_true_iff in E. rewrite !N.eqb_eq in E. destruct E as [E1 E2].
  split.
  - apply has_groups_chunks in H. destruct H as [H _]. destruct a as [t b]. cbn in E1, E2. subst t b.
    rewrite <- H. reflexivity.
  - unfold v6_display. now rewrite E0.
Qed.

Lemma c04_display_full : forall (a : addr V6) (gs : list N),
  has_groups a gs -> Forall (fun g => g <> 0) gs ->
  exists ts, Forall2 (usual 16) gs ts /\ v6_display a = separated ":" ts.
Proof.
  intros a gs H Hn. exists (map fmt_hex gs). split; [now apply Forall2_usual|].
  destruct ((top_half a =? 0) && (bottom_half a =? 0)) eqn:E.
  { apply (display_zero a gs H) in E. destruct E as [-> _]. inversion Hn. congruence. }
  pose proof (has_groups_chunks _ _ H) as [Ec _]. destruct H as (_ & Hl & _).
  unfold v6_display. rewrite E, Ec. pose proof (scan_spec gs Hl) as S.
  assert (v6_scan 9 gs 0 None 0 = (None, 0%nat)) as ->.
  { rewrite <- scan_pat. replace (pat gs) with (repeat 1 8); [reflexivity|]. rewrite <- Hl. clear -Hn.
    induction Hn as [|g gs Hg _ IH]; [reflexivity|]. cbn [List.length repeat pat map]. rewrite IH.
    destruct (N.eqb_spec g 0); [congruence|reflexivity]. }
  rewrite <- separated_join. f_equal.
  destruct gs as [|g0 [|g1 [|g2 [|g3 [|g4 [|g5 [|g6 [|g7 [|? ?]]]]]]]]]; cbn in Hl; try lia. reflexivity.
Qed.

Lemma emit_short gs z k : List.length gs = 8%nat -> (1 <= k)%nat -> (z + k <= 8)%nat ->
  join (lit ":") (v6_emit 9 gs (Some z) k 0) =
  separated ":" (firstn z (map fmt_hex gs)) ++ lit "::" ++ separated ":" (skipn (z + k) (map fmt_hex gs)).
Proof.
  intros Hl H1 H2. change (lit ":") with [":"%char]. rewrite separated_join.
  destruct gs as [|g0 [|g1 [|g2 [|g3 [|g4 [|g5 [|g6 [|g7 [|? ?]]]]]]]]]; cbn in Hl; try lia. clear Hl.
  cbn [map].
  assert (In z (seq 0 8)) as Hz by (apply in_seq; lia). assert (In k (seq 1 8)) as Hk by (apply in_seq; lia).
  cbn [seq In] in Hz, Hk.
  destruct Hz as [<-|[<-|[<-|[<-|[<-|[<-|[<-|[<-|[]]]]]]]]];
    destruct Hk as [<-|[<-|[<-|[<-|[<-|[<-|[<-|[<-|[]]]]]]]]]; try (exfalso; lia);
    cbn [v6_emit Nat.ltb Nat.leb Nat.eqb Nat.add List.app nth firstn skipn separated lit list_ascii_of_string];
    repeat (rewrite <- ?app_assoc; cbn [List.app]; try reflexivity; progress rewrite <- app_assoc); reflexivity.
Qed.

Lemma display_short a gs z k : has_groups a gs -> first_longest_run gs z k ->
  v6_display a = separated ":" (firstn z (map fmt_hex gs)) ++ lit "::" ++ separated ":" (skipn (z + k) (map fmt_hex gs)).
Proof.
  intros H Hr. destruct ((top_half a =? 0) && (bottom_half a =? 0)) eqn:E.
  { apply (display_zero a gs H) in E. destruct E as [-> ->].
    assert (z = 0 /\ k = 8)%nat as [-> ->]; [|reflexivity].
    apply run_unique with (1 := Hr). split.
    - repeat split; try lia. intros i Hi. do 8 (destruct i as [|i]; [reflexivity|]). lia.
    - intros z' k' (K1 & K2 & _). lia. }
  pose proof (has_groups_chunks _ _ H) as [Ec _]. destruct H as (_ & Hl & _).
  unfold v6_display. rewrite E, Ec. pose proof (scan_spec gs Hl) as S.
  destruct (v6_scan 9 gs 0 None 0) as [[z'|] k'].
  - destruct (run_unique _ _ _ _ _ Hr S) as [<- <-]. apply run_bounds in Hr. now apply emit_short.
  - exfalso. destruct Hr as [(K1 & K2 & K3) _]. specialize (K3 z ltac:(lia)). apply nth_error_In in K3.
    rewrite Forall_forall in S. now apply S in K3.
Qed.

Lemma c04_display_short : forall (a : addr V6) (gs : list N) (z k : nat),
  has_groups a gs -> first_longest_run gs z k ->
  exists ts, Forall2 (usual 16) gs ts /\
    v6_display a = separated ":" (firstn z ts) ++ lit "::" ++ separated ":" (skipn (z + k) ts).
Proof.
  intros a gs z k H Hr. exists (map fmt_hex gs). split; [now apply Forall2_usual|]. now apply display_short.
Qed.

Lemma Forall2_groups gs : u16s gs -> Forall2 group_text gs (map fmt_hex gs).
Proof.
  induction 1 as [|g gs Hg _ IH]; cbn [map]; constructor; [|exact IH]. split; [|lia].
  left. now apply fmt_radix_numeral.
Qed.

Lemma run_split gs z k : List.length gs = 8%nat -> zero_run gs z k ->
  gs = firstn z gs ++ repeat 0 k ++ skipn (z + k) gs.
Proof.
  intros Hl (H1 & H2 & H3). rewrite <- (firstn_skipn z gs) at 1. f_equal.
  rewrite <- (firstn_skipn k (skipn z gs)) at 1. f_equal.
  - clear H1 H2 Hl. revert gs H3. induction z as [|z IH]; intros gs H3.
    + cbn [skipn]. cbn [Nat.add] in H3. revert gs H3. induction k as [|k IH]; intros gs H3; [reflexivity|].
      pose proof (H3 O ltac:(lia)) as E0. destruct gs as [|g gs]; cbn in E0; [discriminate|]. inversion E0; subst.
      cbn [firstn repeat]. f_equal. apply IH. intros i Hi. apply (H3 (S i)). lia.
    + destruct gs as [|g gs].
      * destruct k as [|k]; [reflexivity|]. specialize (H3 (S z) ltac:(lia)). discriminate.
      * cbn [skipn]. apply IH. intros i Hi. apply (H3 (S i)). lia.
  - clear. revert gs. induction z as [|z IH]; intros gs; [reflexivity|].
    destruct gs as [|g gs]; [now rewrite !skipn_nil|]. cbn [skipn Nat.add]. apply IH.
Qed.

Lemma Forall2_firstn {A B} (P : A -> B -> Prop) l m n : Forall2 P l m -> Forall2 P (firstn n l) (firstn n m).
Proof. intros H. revert n. induction H; intros [|n]; cbn [firstn]; constructor; auto. Qed.
Lemma Forall2_skipn {A B} (P : A -> B -> Prop) l m n : Forall2 P l m -> Forall2 P (skipn n l) (skipn n m).
Proof. intros H. revert n. induction H; intros [|n]; cbn [skipn]; try constructor; auto. Qed.

Lemma display_v6_short a gs z k : has_groups a gs -> first_longest_run gs z k ->
  v6_short (v6_display a) (firstn z gs) (skipn (z + k) gs) gs /\ List.length (firstn z gs) = z /\ List.length (skipn (z + k) gs) = (8 - z - k)%nat.
Proof.
  intros H Hr. pose proof (run_bounds _ _ _ Hr) as Hb. pose proof H as (_ & Hl & Hu & _).
  assert (List.length (firstn z gs) = z) as L1 by (rewrite firstn_length; lia).
  assert (List.length (skipn (z + k) gs) = (8 - z - k)%nat) as L2 by (rewrite skipn_length; lia).
  split; [|now split].
  exists (firstn z (map fmt_hex gs)), (skipn (z + k) (map fmt_hex gs)).
  pose proof (Forall2_groups gs Hu) as F.
  split; [now apply Forall2_firstn|]. split; [now apply Forall2_skipn|]. split; [now apply display_short|].
  rewrite L1, L2. replace (8 - z - (8 - z - k))%nat with k by lia. apply run_split; [exact Hl|]. apply Hr.
Qed.

Lemma run_or_full gs : List.length gs = 8%nat ->
  Forall (fun g => g <> 0) gs \/ exists z k, first_longest_run gs z k.
Proof.
  intros Hl. pose proof (scan_spec gs Hl) as S. destruct (v6_scan 9 gs 0 None 0) as [[z|] k]; eauto.
Qed.

Lemma has_groups_eq a b gs : has_groups a gs -> has_groups b gs -> a = b.
Proof. intros Ha Hb. apply has_groups_chunks in Ha, Hb. destruct Ha as [_ Ha], Hb as [_ Hb]. congruence. Qed.

Lemma c04_roundtrip : forall (a : addr V6) (gs : list N),
  has_groups a gs -> ~ lonely gs -> v6_from_str (v6_display a) = Ret (ROk a).
Proof.
  intros a gs H Hn. pose proof H as (_ & Hl & Hu & _).
  destruct (run_or_full gs Hl) as [Hf|(z & k & Hr)].
  - destruct (c04_display_full a gs H Hf) as (ts & Ft & E).
    destruct (c05_full_form (v6_display a) gs) as (b & Hb & Eb).
    + exists ts. pose proof (Forall2_len _ _ _ Ft) as El. split; [congruence|]. split; [|exact E].
      clear -Ft Hu. induction Ft as [|g t gs ts [Hg _] _ IH]; constructor; inversion Hu; subst.
      * split; [now left|lia].
      * auto.
    + rewrite Eb. now rewrite (has_groups_eq _ _ _ H Hb).
  - destruct (display_v6_short a gs z k H Hr) as (Hs & L1 & L2). pose proof (run_bounds _ _ _ Hr) as Hb.
    destruct (c05_short_form _ _ _ _ Hs) as (b & Hb' & Eb).
    + lia.
    + intros E. rewrite E in L1. cbn [List.length] in L1. subst z.
      destruct (Nat.eq_dec k 1) as [->|]; [|lia]. exfalso. apply Hn. now left.
    + intros E. rewrite E in L2. cbn [List.length] in L2.
      destruct (Nat.eq_dec k 1) as [->|]; [|lia]. exfalso. apply Hn. right. assert (z = 7%nat) as -> by lia. exact Hr.
    + rewrite Eb. now rewrite (has_groups_eq _ _ _ H Hb').
Qed.

Lemma c04_lonely_rejected : forall (a : addr V6) (gs : list N),
  has_groups a gs -> lonely gs ->
  v6_from_str (v6_display a) = Ret (RErr (IncorrectChunkCount 9 8)).
Proof.
  intros a gs H [Hr|Hr]; destruct (display_v6_short a gs _ _ H Hr) as (Hs & L1 & L2);
    apply (c05_short_form_at_edge_rejected _ _ _ _ Hs); try lia.
  - now left.
  - right. now apply length_zero_iff_nil.
Qed.

Lemma c04_always_roundtrips_refuted : exists a : addr V6,
  valid a /\ v6_from_str (v6_display a) <> Ret (ROk a).
Proof. exists (ip6 0 1 2 3 4 5 6 7). split; [split; vm_compute; reflexivity|]. vm_compute. discriminate. Qed.

(** The chunks of a text determine the groups on either side of the colons. *)
Lemma first_empty ls ls' (R R' : list str) :
  Forall (fun t : str => t <> []) ls -> Forall (fun t : str => t <> []) ls' ->
  ls ++ [] :: R = ls' ++ [] :: R' -> ls = ls' /\ R = R'.
Proof.
  intros H. revert ls'. induction H as [|t ls Ht _ IH]; intros ls' H' E; destruct H' as [|t' ls' Ht' H'].
  - now inversion E.
  - inversion E. congruence.
  - inversion E. congruence.
  - inversion E as [[E1 E2]]. destruct (IH ls' H' E2) as [-> ->]. now split.
Qed.

Lemma pads_inj (ls rs ls' rs' : list str) :
  Forall (fun t : str => t <> []) ls -> Forall (fun t : str => t <> []) rs ->
  Forall (fun t : str => t <> []) ls' -> Forall (fun t : str => t <> []) rs' ->
  pad_list [] ls ++ [] :: pad_list [] rs = pad_list [] ls' ++ [] :: pad_list [] rs' -> ls = ls' /\ rs = rs'.
Proof.
  intros H1 H2 H3 H4 E.
  assert (ls = ls' /\ pad_list [] rs = pad_list [] rs') as [-> E'].
  { destruct ls as [|t ls], ls' as [|t' ls']; cbn [pad_list List.app] in E.
    - inversion E. now split.
    - inversion E; subst. inversion H3. congruence.
    - inversion E; subst. inversion H1. congruence.
    - now apply (first_empty (t :: ls) (t' :: ls')). }
  split; [reflexivity|].
  destruct rs as [|t rs], rs' as [|t' rs']; cbn [pad_list] in E'; try reflexivity; try congruence.
  - inversion E'; subst. inversion H4. congruence.
  - inversion E'; subst. inversion H2. congruence.
Qed.

Lemma split_short ls rs : Forall (fun t : str => ~ In ":"%char t) ls -> Forall (fun t : str => ~ In ":"%char t) rs ->
  split_on ":" (separated ":" ls ++ lit "::" ++ separated ":" rs) = pad_list [] ls ++ [] :: pad_list [] rs.
Proof.
  intros Hl Hr. assert (forall ts, separated ":" ts = separated ":" (pad_list [] ts)) as A by (now destruct ts).
  rewrite (A ls), (A rs). rewrite short_chunks by (first [now destruct ls | now destruct rs]).
  assert (forall ts, Forall (fun t : str => ~ In ":"%char t) ts -> Forall (fun t : str => ~ In ":"%char t) (pad_list [] ts)) as B.
  { intros ts H. destruct ts; [|exact H]. constructor; [intros []|constructor]. }
  apply split_of_separated; [now destruct ls|]. apply Forall_app. split; [auto|]. constructor; [intros []|auto].
Qed.

Lemma groups_inj gs hs ts : Forall2 group_text gs ts -> Forall2 group_text hs ts -> gs = hs.
Proof.
  intros H. apply parses_groups in H. intros H'. apply parses_groups in H'. revert hs H'.
  induction H; intros hs H'; inversion H'; subst; [reflexivity|]. f_equal; [unfold parses in *; congruence|auto].
Qed.

Lemma c04_injective : forall (a b : addr V6),
  valid a -> valid b -> v6_display a = v6_display b -> a = b.
Proof.
  intros a b Ha Hb E.
  apply chunks_has_groups in Ha, Hb. set (gs := v6_to_chunks a) in *. set (hs := v6_to_chunks b) in *.
  assert (gs = hs) as <-; [|now apply (has_groups_eq a b gs)].
  clearbody gs hs. pose proof Ha as (_ & La & Ua & _). pose proof Hb as (_ & Lb & Ub & _).
  assert (forall (c : addr V6) is, has_groups c is ->
     (exists ts, Forall2 group_text is ts /\ Forall (fun t : str => t <> []) (split_on ":" (v6_display c)) /\
        split_on ":" (v6_display c) = ts) \/
     (exists l r ls rs, Forall2 group_text l ls /\ Forall2 group_text r rs /\
        split_on ":" (v6_display c) = pad_list [] ls ++ [] :: pad_list [] rs /\
        is = l ++ repeat 0 (8 - List.length l - List.length r) ++ r)) as A.
  { intros c is H. pose proof H as (_ & L & U & _). destruct (run_or_full is L) as [Hf|(z & k & Hr)].
    - left. destruct (c04_display_full c is H Hf) as (ts & Ft & Et).
      assert (Forall2 group_text is ts) as Fg.
      { clear -Ft U. induction Ft as [|g t gs ts [Hg _] _ IH]; constructor; inversion U; subst.
        - split; [now left|lia].
        - auto. }
      exists ts. split; [exact Fg|]. rewrite Et. rewrite split_of_separated.
      + split; [|reflexivity]. eapply groups_nonempty; eauto.
      + inversion Ft; subst; [discriminate L|discriminate].
      + eapply groups_no_colon; eauto.
    - right. destruct (display_v6_short c is z k H Hr) as ((ls & rs & Fl & Fr & Et & Ei) & _).
      exists (firstn z is), (skipn (z + k) is), ls, rs. split; [exact Fl|]. split; [exact Fr|]. split; [|exact Ei].
      rewrite Et. apply split_short; eapply groups_no_colon; eauto. }
  destruct (A a gs Ha) as [(ts & Ft & Nt & Et)|(l & r & ls & rs & Fl & Fr & Et & Eg)],
           (A b hs Hb) as [(ts' & Ft' & Nt' & Et')|(l' & r' & ls' & rs' & Fl' & Fr' & Et' & Eg')].
  - rewrite E, Et' in Et. subst ts'. eapply groups_inj; eauto.
  - exfalso. rewrite E, Et' in Nt. apply Forall_app in Nt. destruct Nt as [_ Nt]. inversion Nt. congruence.
  - exfalso. rewrite <- E, Et in Nt'. apply Forall_app in Nt'. destruct Nt' as [_ Nt']. inversion Nt'. congruence.
  - rewrite E, Et' in Et. symmetry in Et. apply pads_inj in Et; try (eapply groups_nonempty; eauto).
    destruct Et as [<- <-]. rewrite Eg, Eg'.
    now rewrite (groups_inj _ _ _ Fl Fl'), (groups_inj _ _ _ Fr Fr').
Qed.
