(** * Pf_Refuse: proofs for P_Refuse *)
From Verif Require Import RustBase Addr Parse Console Messages Main Spec SpecText SpecIO SpecShow SpecMain SpecRefuse Demo TextFacts Pf_Addr Pf_Text Pf_Netspec Pf_Main.
From Coq Require Import ZifyBool ZifyNat ZifyN.
Ltac Zify.zify_post_hook ::= idtac.

(** ** Numbers *)
Lemma digits_err r max s : rdx r -> forall acc e, acc <= max -> parse_digits r max acc s = RErr e ->
  (e = IE_PosOverflow <-> exists p rest x, s = p ++ rest /\ p <> [] /\ numeral_from r acc p = Some x /\ max < x) /\
  e <> IE_Empty.
Proof.
  intros Hr. assert (1 <= r) as Hr1 by (destruct Hr; subst; lia).
  induction s as [|c s IH]; intros acc e Ha; cbn [parse_digits]; [discriminate|].
  rewrite to_digit_below by assumption. destruct (digit_below r c) as [d|] eqn:Ed.
  2:{ intros E. assert (e = IE_InvalidDigit) as -> by congruence. split; [|discriminate]. split; [discriminate|].
      intros (p & rest & x & Es & Hp & Hx & _). destruct p as [|c' p]; [congruence|].
      cbn [List.app] in Es. assert (c' = c) as -> by congruence. cbn [numeral_from] in Hx. rewrite Ed in Hx. discriminate. }
  assert (acc * r + d <= max \/ max < acc * r + d) as [Hle|Hlt] by lia.
  - destruct (N.ltb_spec max (acc * r)); [lia|]. destruct (N.ltb_spec max (acc * r + d)); [lia|].
    intros E. destruct (IH _ e Hle E) as [K Hne]. split; [|exact Hne]. rewrite K. split.
    + intros (p & rest & x & -> & Hp & Hx & L). exists (c :: p), rest, x. repeat split; [discriminate| |exact L].
      cbn [numeral_from]. now rewrite Ed.
    + intros (p & rest & x & Es & Hp & Hx & L). destruct p as [|c' p]; [congruence|].
      cbn [List.app] in Es. assert (c' = c) as -> by congruence. assert (s = p ++ rest) as -> by congruence.
      cbn [numeral_from] in Hx. rewrite Ed in Hx. exists p, rest, x. repeat split; try assumption.
      intros ->. cbn [numeral_from] in Hx. assert (x = acc * r + d) by congruence. lia.
  - intros E. assert (e = IE_PosOverflow) as -> by (destruct (max <? acc * r); [congruence|]; destruct (N.ltb_spec max (acc * r + d)); [congruence|lia]).
    split; [|discriminate]. split; [|reflexivity]. intros _. exists [c], s, (acc * r + d).
    repeat split; [discriminate| |exact Hlt]. cbn [numeral_from]. now rewrite Ed.
Qed.

Lemma numeral_some r p x : numeral r p = Some x <-> p <> [] /\ numeral_from r 0 p = Some x.
Proof. destruct p; cbn [numeral]; [|intuition congruence]. split; [discriminate|intros [K _]; congruence]. Qed.

Lemma outgrows_nonempty r max s : outgrows r max s -> s <> [].
Proof. intros (p & rest & x & E & Hx & _) ->. destruct p; [discriminate|]. destruct E; discriminate. Qed.

(** A text that starts with a sign or is empty apart from it. *)
Lemma outgrows_plus r max s : outgrows r max ("+"%char :: s) <->
  exists p rest x, s = p ++ rest /\ p <> [] /\ numeral_from r 0 p = Some x /\ max < x.
Proof.
  split.
  - intros (p & rest & x & E & Hx & L). apply numeral_some in Hx. destruct Hx as [Hp Hx]. destruct E as [E|E].
    + destruct p as [|c p]; [congruence|]. cbn [List.app] in E. assert (c = "+"%char) as -> by congruence.
      cbn [numeral_from] in Hx. rewrite digit_below_not in Hx by reflexivity. discriminate.
    + exists p, rest, x. repeat split; try assumption. congruence.
  - intros (p & rest & x & -> & Hp & Hx & L). exists p, rest, x. repeat split; try assumption; [now right|].
    now apply numeral_some.
Qed.

Lemma outgrows_not_plus r max c s : c <> "+"%char -> outgrows r max (c :: s) <->
  exists p rest x, c :: s = p ++ rest /\ p <> [] /\ numeral_from r 0 p = Some x /\ max < x.
Proof.
  intros Hc. split.
  - intros (p & rest & x & E & Hx & L). apply numeral_some in Hx. destruct Hx as [Hp Hx]. destruct E as [E|E]; [|congruence].
    exists p, rest, x. auto.
  - intros (p & rest & x & E & Hp & Hx & L). exists p, rest, x. repeat split; try assumption; [now left|].
    now apply numeral_some.
Qed.

Lemma parse_err_sound r max s why : rdx r -> parse_uint r max s = RErr why -> why_not r max s why.
Proof.
  intros Hr E. split.
  { intros x Hx. destruct (N.lt_ge_cases max x) as [L|L]; [exact L|]. exfalso.
    assert (parse_uint r max s = ROk x) by (apply parse_uint_spec; auto). congruence. }
  assert (forall t, parse_digits r max 0 t = RErr why -> s <> [] ->
    (outgrows r max s <-> exists p rest x, t = p ++ rest /\ p <> [] /\ numeral_from r 0 p = Some x /\ max < x) ->
    match why with IE_Empty => s = [] | IE_InvalidDigit => s <> [] /\ ~ outgrows r max s | IE_PosOverflow => outgrows r max s end) as A.
  { intros t Et Hs Ho. destruct (digits_err r max t Hr 0 why ltac:(lia) Et) as [K Hne]. rewrite <- Ho in K.
    destruct why; [congruence| |now apply K]. split; [exact Hs|]. intros L. apply K in L. discriminate. }
  unfold parse_uint in E. destruct s as [|c s]; [assert (why = IE_Empty) as -> by congruence; reflexivity|].
  destruct (Ascii.eqb_spec c "+") as [->|Hp]; cbn [orb] in E.
  - destruct s as [|c s].
    + assert (why = IE_InvalidDigit) as -> by congruence. split; [discriminate|]. rewrite outgrows_plus.
      intros (p & rest & x & K & Hp & _). destruct p; [congruence|discriminate].
    + apply (A _ E); [discriminate|]. apply outgrows_plus.
  - assert (parse_digits r max 0 (c :: s) = RErr why) as E'.
    { destruct (Ascii.eqb_spec c "-") as [->|]; [|exact E]. destruct s as [|c s]; [|exact E].
      cbn [parse_digits]. rewrite to_digit_below, digit_below_not by (assumption || reflexivity). exact E. }
    apply (A _ E'); [discriminate|]. now apply outgrows_not_plus.
Qed.

Lemma why_not_unique r max s w w' : why_not r max s w -> why_not r max s w' -> w = w'.
Proof.
  intros [_ H] [_ H']. destruct w, w'; try reflexivity; try tauto;
    match goal with K : outgrows _ _ s |- _ => apply outgrows_nonempty in K; tauto end.
Qed.

Lemma c87_number : forall (radix max : N) (s : str) (why : int_error), radix = 10 \/ radix = 16 ->
  parse_uint radix max s = RErr why <-> why_not radix max s why.
Proof.
  intros r max s why Hr. assert (rdx r) as Hr' by (destruct Hr; [now left|now right]).
  split; [now apply parse_err_sound|]. intros W. destruct (parse_uint r max s) as [x|w] eqn:E.
  - apply parse_uint_spec in E; [|exact Hr']. destruct E as [Hx L]. apply W in Hx. lia.
  - apply parse_err_sound in E; [|exact Hr']. now rewrite (why_not_unique _ _ _ _ _ W E).
Qed.

(** ** Addresses *)
Lemma parts_split c s ts : parts_of c s ts <-> ts = split_on c s.
Proof.
  split.
  - intros (Hne & Hf & ->). now rewrite split_of_separated.
  - intros ->. split; [apply split_on_nonempty|]. split; [apply split_pieces|]. now rewrite split_separated.
Qed.

Lemma first_bad_cons (good : str -> Prop) t ts i u : good t -> first_bad good (t :: ts) (S i) u <-> first_bad good ts i u.
Proof.
  intros Ht. split.
  - intros (us & vs & E & Hl & Hf & Hb). destruct us as [|t' us]; [discriminate|]. cbn [List.app] in E.
    exists us, vs. repeat split; try assumption; [congruence|cbn in Hl; lia|now inversion Hf].
  - intros (us & vs & -> & Hl & Hf & Hb). exists (t :: us), vs. repeat split; try assumption; [cbn; lia|now constructor].
Qed.

Lemma first_bad_here (good : str -> Prop) t ts i u : ~ good t -> first_bad good (t :: ts) i u <-> i = O /\ u = t.
Proof.
  intros Ht. split.
  - intros (us & vs & E & Hl & Hf & Hb). destruct us as [|t' us].
    + cbn in Hl, E. split; congruence.
    + exfalso. cbn [List.app] in E. inversion Hf; subst. congruence.
  - intros [-> ->]. exists [], ts. repeat split; [constructor|exact Ht].
Qed.

Lemma first_bad_good (good : str -> Prop) t ts i u : good t -> first_bad good (t :: ts) i u -> exists j, i = S j /\ first_bad good ts j u.
Proof.
  intros Ht (us & vs & E & Hl & Hf & Hb). destruct us as [|t' us].
  - exfalso. cbn in E. congruence.
  - exists (List.length us). split; [cbn in Hl; lia|]. cbn [List.app] in E. exists us, vs.
    repeat split; [congruence|now inversion Hf|exact Hb].
Qed.

Lemma first_bad_nil (good : str -> Prop) i u : ~ first_bad good [] i u.
Proof. intros (us & vs & E & _). destruct us; discriminate. Qed.

Definition complaint4 (i : nat) (t : str) (e : addr_error) : Prop :=
  (t = [] /\ e = EmptyChunk i) \/
  (exists x, written 10 t x /\ x < 2 ^ 32 /\ e = ChunkOutOfRange i x 0 255) \/
  (t <> [] /\ exists why, why_not 10 (2 ^ 32 - 1) t why /\ e = ChunkParseError i t why).

Lemma max32 : u32_max = 2 ^ 32 - 1. Proof. reflexivity. Qed.
Lemma max16 : u16_max = 2 ^ 16 - 1. Proof. reflexivity. Qed.
Lemma max_usize (R : Rust) : usize_max = 2 ^ usize_bits - 1. Proof. reflexivity. Qed.

Lemma loop4 ts : forall i acc e,
  v4_parse_loop i ts acc = RErr e <-> exists j t, first_bad good4 ts j t /\ complaint4 (i + j) t e.
Proof.
  induction ts as [|t ts IH]; intros i acc e; cbn [v4_parse_loop].
  { split; [discriminate|]. intros (j & t & K & _). now apply first_bad_nil in K. }
  assert (forall x y, written 10 t x -> written 10 t y -> x <= u32_max -> y <= u32_max -> x = y) as Wu.
  { intros x y Hx Hy Lx Ly. assert (ROk x = @ROk N int_error y) as K; [|congruence].
    rewrite <- (proj2 (parse_uint_spec 10 u32_max t x (or_introl eq_refl)) (conj Hx Lx)).
    exact (proj2 (parse_uint_spec 10 u32_max t y (or_introl eq_refl)) (conj Hy Ly)). }
  assert (~ good4 t -> (forall e', complaint4 i t e' <-> RErr e' =
     match t with [] => RErr (EmptyChunk i) | _ :: _ =>
       rbind (map_err (ChunkParseError i t) (parse_uint 10 u32_max t))
            (fun chunk_val =>
               if 255 <? chunk_val then RErr (ChunkOutOfRange i chunk_val 0 255)
               else v4_parse_loop (S i) ts (N.lor acc (shl32 chunk_val (24 - N.of_nat i * 8)))) end)) as Bad.
  { intros Hb e'. unfold complaint4. destruct t as [|c t].
    - split.
      + intros [[_ ->]|[(x & Hx & _)|[K _]]]; [reflexivity| |congruence]. now apply written_nonempty in Hx.
      + intros E. left. split; [reflexivity|congruence].
    - destruct (parse_uint 10 u32_max (c :: t)) as [x|w] eqn:E; cbn [map_err rbind].
      + apply parse_uint_spec in E; [|now left]. destruct E as [Hx L].
        destruct (N.ltb_spec 255 x) as [L'|L']; [|exfalso; apply Hb; now exists x].
        rewrite max32 in *. split.
        * intros [[K _]|[(y & Hy & Ly & ->)|[_ (w & [W _] & _)]]]; [discriminate| |apply W in Hx; lia].
          rewrite (Wu y x Hy Hx) by lia. reflexivity.
        * intros K. right. left. exists x. split; [exact Hx|]. split; [lia|congruence].
      + apply c87_number in E; [|now left]. split.
        * intros [[K _]|[(y & Hy & Ly & ->)|[_ (w' & W & ->)]]]; [discriminate| |].
          -- destruct E as [E _]. apply E in Hy. rewrite max32 in Hy. lia.
          -- now rewrite (why_not_unique _ _ _ _ _ W E).
        * intros K. right. right. split; [discriminate|]. exists w. split; [exact E|congruence]. }
  assert (good4 t \/ ~ good4 t) as [Hg|Hg].
  { destruct (parse_uint 10 u32_max t) as [x|w] eqn:E.
    - apply parse_uint_spec in E; [|now left]. destruct E as [Hx L]. destruct (N.le_gt_cases x 255) as [L'|L']; [left; now exists x|].
      right. intros (y & Hy & Ly). assert (x = y) by (apply Wu; try assumption; unfold u32_max; lia). lia.
    - right. intros (y & Hy & Ly). apply c87_number in E; [|now left]. apply E in Hy. unfold u32_max in Hy. lia. }
  - pose proof Hg as (x & Hx & Lx).
    assert (parse_uint 10 u32_max t = ROk x) as Ex by (apply parse_ok; [exact Hx|unfold u32_max; lia]).
    pose proof (written_nonempty _ _ _ Hx) as Hne. destruct t as [|c t]; [congruence|].
    rewrite Ex. cbn [map_err rbind]. destruct (N.ltb_spec 255 x); [lia|]. rewrite IH. split.
    + intros (j & u & K & C). exists (S j), u. rewrite first_bad_cons by exact Hg. split; [exact K|].
      now replace (i + S j)%nat with (S i + j)%nat by lia.
    + intros (j & u & K & C). apply first_bad_good in K; [|exact Hg]. destruct K as (k & -> & K). exists k, u. split; [exact K|].
      now replace (S i + k)%nat with (i + S k)%nat by lia.
  - specialize (Bad Hg e). split.
    + intros E. exists O, t. rewrite first_bad_here by exact Hg. split; [now split|]. rewrite Nat.add_0_r. apply Bad. symmetry. exact E.
    + intros (j & u & K & C). rewrite first_bad_here in K by exact Hg. destruct K as [-> ->]. rewrite Nat.add_0_r in C.
      apply Bad in C. symmetry. exact C.
Qed.

Lemma c87_v4 : forall (s : str) (e : addr_error), v4_from_str s = RErr e <-> refused V4 s e.
Proof.
  intros s e. unfold v4_from_str, refused, refused4. split.
  - intros E. exists (split_on "." s). split; [now apply parts_split|].
    destruct (Nat.eqb_spec (List.length (split_on "." s)) 4) as [Hl|Hl]; cbn [negb] in E.
    + right. split; [exact Hl|]. destruct (v4_parse_loop 0 (split_on "." s) 0) eqn:El; cbn [rbind] in E; [discriminate|].
      apply loop4 in El. destruct El as (j & t & K & C). assert (e = e0) as -> by congruence. exists j, t. split; [exact K|exact C].
    + left. split; [exact Hl|congruence].
  - intros (ts & Hp & H). apply parts_split in Hp. subst ts.
    destruct H as [[Hl ->]|(Hl & j & t & K & C)].
    + destruct (Nat.eqb_spec (List.length (split_on "." s)) 4); [congruence|reflexivity].
    + rewrite Hl. cbn [Nat.eqb negb]. assert (v4_parse_loop 0 (split_on "." s) 0 = RErr e) as ->; [|reflexivity].
      apply loop4. exists j, t. split; [exact K|exact C].
Qed.

(** ** IPv6 *)
Lemma loop6 ts : forall pre top bottom e, (List.length pre + List.length ts = 8)%nat ->
  v6_value_loop (List.length ts) (List.length pre) (pre ++ ts) top bottom = Ret (RErr e) <->
  exists j t why, first_bad good6 ts j t /\ why_not 16 (2 ^ 16 - 1) t why /\ e = ChunkParseError (List.length pre + j) t why.
Proof.
  induction ts as [|t ts IH]; intros pre top bottom e Hl; cbn [List.length v6_value_loop].
  { split; [discriminate|]. intros (j & t & w & K & _). now apply first_bad_nil in K. }
  assert (index (pre ++ t :: ts) (List.length pre) = Ret t) as ->.
  { unfold index. rewrite nth_error_app2, Nat.sub_diag by lia. reflexivity. }
  cbn [bind]. destruct (parse_uint 16 u16_max t) as [x|w] eqn:E.
  - apply parse_uint_spec in E; [|now right].
    assert (good6 t) as Hg by (exists x; exact E).
    specialize (IH (pre ++ [t])). rewrite app_length in IH. cbn [List.length] in IH, Hl.
    rewrite <- app_assoc in IH. cbn [List.app] in IH. replace (List.length pre + 1)%nat with (S (List.length pre)) in IH by lia.
    assert (forall top' bottom', v6_value_loop (List.length ts) (S (List.length pre)) (pre ++ t :: ts) top' bottom' = Ret (RErr e) <->
      exists j u why, first_bad good6 (t :: ts) j u /\ why_not 16 (2 ^ 16 - 1) u why /\ e = ChunkParseError (List.length pre + j) u why) as A.
    { intros top' bottom'. rewrite IH by lia. split.
      - intros (j & u & w & K & W & ->). exists (S j), u, w. rewrite first_bad_cons by exact Hg. repeat split; try assumption; try apply W.
        f_equal. lia.
      - intros (j & u & w & K & W & ->). apply first_bad_good in K; [|exact Hg]. destruct K as (k & -> & K).
        exists k, u, w. repeat split; try assumption; try apply W. f_equal. lia. }
    destruct (Nat.ltb (List.length pre) 4); apply A.
  - apply c87_number in E; [|now right]. rewrite max16 in E.
    assert (~ good6 t) as Hg.
    { intros (g & W & L). destruct E as [E _]. apply E in W. change (2 ^ 16 - 1) with 65535 in W. lia. }
    split.
    + intros K. exists O, t, w. rewrite first_bad_here by exact Hg. rewrite Nat.add_0_r. split; [now split|]. split; [exact E|congruence].
    + intros (j & u & w' & K & W & ->). rewrite first_bad_here in K by exact Hg. destruct K as [-> ->].
      rewrite Nat.add_0_r, (why_not_unique _ _ _ _ _ W E). reflexivity.
Qed.

Lemma loop6_8 ts e : List.length ts = 8%nat ->
  v6_value_loop 8 0 ts 0 0 = Ret (RErr e) <->
  exists j t why, first_bad good6 ts j t /\ why_not 16 (2 ^ 16 - 1) t why /\ e = ChunkParseError j t why.
Proof. intros Hl. pose proof (loop6 ts [] 0 0 e Hl) as K. rewrite Hl in K. exact K. Qed.

Lemma empty_ones_filter ts k : empty_ones ts k <-> k = List.length (filter is_empty ts).
Proof.
  split.
  - induction 1; cbn [filter is_empty List.length]; congruence.
  - intros ->. induction ts as [|[|c t] ts IH]; cbn [filter is_empty List.length]; now constructor.
Qed.

Lemma expanded_none ts gs : List.length (filter is_empty ts) = O -> expanded ts gs -> gs = ts.
Proof.
  intros Hn (_ & _ & [[_ ->]|(ls & rs & -> & Hl & Hr & ->)]); [reflexivity|].
  pose proof (count_empty ls rs Hl Hr) as K. unfold str in *. rewrite Hn in K. discriminate.
Qed.

Lemma app_empty_unique ls : forall rs ls' rs' : list str, ls ++ [] :: rs = ls' ++ [] :: rs' ->
  Forall (fun t : str => t <> []) ls -> Forall (fun t : str => t <> []) ls' -> ls = ls' /\ rs = rs'.
Proof.
  induction ls as [|t ls IH]; intros rs [|t' ls'] rs' E Hl Hl'; cbn [List.app] in E; unfold str in *.
  - split; congruence.
  - exfalso. inversion Hl'; subst. congruence.
  - exfalso. inversion Hl; subst. congruence.
  - inversion Hl; inversion Hl'; subst. destruct (IH rs ls' rs') as [-> ->]; try assumption; [congruence|]. split; [congruence|reflexivity].
Qed.

Lemma c87_v6 : forall (s : str) (e : addr_error), v6_from_str s = Ret (RErr e) <-> refused V6 s e.
Proof.
  intros s e. unfold refused, refused6. rewrite v6_from_str_eq. cbv zeta.
  set (ts := split_on ":" (padded s)). set (k := List.length (filter is_empty ts)).
  assert ((if Nat.ltb 8 (List.length ts)
   then Ret (RErr (IncorrectChunkCount (List.length ts) 8))
   else
     if Nat.ltb 1 k
     then Ret (RErr (TooManyShorteningElements k 1))
     else if Nat.eqb k 0 then
       if negb (Nat.eqb (List.length ts) 8)
       then Ret (RErr (IncorrectChunkCount (List.length ts) 8))
       else v6_value_loop 8 0 ts 0 0
     else
       actual <- v6_copy_front ts 0 (repeat (lit "0") 8) ;;
       actual <- v6_copy_back (rev ts) 0 actual ;;
       v6_value_loop 8 0 actual 0 0) = Ret (RErr e) <->
    (((8 < List.length ts \/ (k = 0 /\ List.length ts < 8))%nat /\ e = IncorrectChunkCount (List.length ts) 8) \/
     ((List.length ts <= 8 /\ 1 < k)%nat /\ e = TooManyShorteningElements k 1) \/
     exists gs i t why, expanded ts gs /\ first_bad good6 gs i t /\ why_not 16 (2 ^ 16 - 1) t why /\
       e = ChunkParseError i t why)) as Main.
  2:{ rewrite Main. split.
      - intros K. exists ts, k. split; [now apply parts_split|]. split; [now apply empty_ones_filter|]. exact K.
      - intros (ts' & k' & Hp & Hk & K). apply parts_split in Hp. fold ts in Hp. subst ts'.
        apply empty_ones_filter in Hk. fold k in Hk. subst k'. exact K. }
  assert (forall gs, expanded ts gs -> (List.length ts <= 8 /\ k <= 1 /\ (k = 0 -> List.length ts = 8))%nat) as Hx.
  { intros gs (H8 & Hl & [[Hf ->]|(ls & rs & E & Hf & Hf' & _)]).
    - apply no_empty in Hf. fold k in Hf. lia.
    - assert (k = 1%nat) by (unfold k; rewrite E; exact (count_empty ls rs Hf Hf')). lia. }
  destruct (Nat.ltb_spec 8 (List.length ts)) as [L|L].
  { split.
    - intros K. left. split; [now left|congruence].
    - intros [[_ ->]|[[[K _] _]|(gs & i & t & w & K & _)]]; [reflexivity|lia|apply Hx in K; lia]. }
  destruct (Nat.ltb_spec 1 k) as [L1|L1].
  { split.
    - intros K. right. left. split; [now split|congruence].
    - intros [[[K|[K _]] _]|[[_ ->]|(gs & i & t & w & K & _)]]; [lia|lia|reflexivity|apply Hx in K; lia]. }
  destruct (Nat.eqb_spec k 0) as [Hk|Hk].
  - destruct (Nat.eqb_spec (List.length ts) 8) as [H8|H8]; cbn [negb].
    + rewrite (loop6_8 ts e H8). split.
      * intros (j & t & w & K & W & ->). right. right. exists ts, j, t, w. repeat split; try assumption; try apply W.
        left. split; [|reflexivity]. now apply no_empty.
      * intros [[[K|[_ K]] _]|[[[_ K] _]|(gs & i & t & w & X & K & W & ->)]]; try lia.
        apply expanded_none in X; [|exact Hk]. subst gs. exists i, t, w. auto.
    + split.
      * intros K. left. split; [right; split; [exact Hk|lia]|congruence].
      * intros [[_ ->]|[[[_ K] _]|(gs & i & t & w & K & _)]]; [reflexivity|lia|apply Hx in K; lia].
  - assert (k = 1%nat) as H1 by lia. destruct (one_empty ts H1) as (ls & rs & E & Hf & Hf').
    assert (List.length ls + List.length rs <= 7)%nat as Hl.
    { rewrite E, app_length in L. cbn [List.length] in L. unfold str in *. lia. }
    set (gs := ls ++ repeat (lit "0") (8 - List.length ls - List.length rs) ++ rs).
    assert (List.length gs = 8%nat) as H8.
    { unfold gs. rewrite !app_length, repeat_length. unfold str in *. lia. }
    assert ((actual <- v6_copy_front ts 0 (repeat (lit "0") 8) ;;
       actual <- v6_copy_back (rev ts) 0 actual ;;
       v6_value_loop 8 0 actual 0 0) = v6_value_loop 8 0 gs 0 0) as -> by (rewrite E; exact (expand ls rs Hf Hf' Hl)).
    rewrite (loop6_8 gs e H8). split.
    + intros (j & t & w & K & W & ->). right. right. exists gs, j, t, w. repeat split; try assumption; try apply W.
      right. exists ls, rs. auto.
    + intros [[[K|[K _]] _]|[[[_ K] _]|(gs' & i & t & w & X & K & W & ->)]]; try lia.
      destruct X as (_ & _ & [[Hn _]|(ls' & rs' & E' & Hg & Hg' & ->)]).
      * apply no_empty in Hn. fold k in Hn. lia.
      * rewrite E in E'. destruct (app_empty_unique _ _ _ _ E' Hf Hg) as [<- <-]. exists i, t, w. auto.
Qed.

Lemma rd_refused F s e : rd F s = Ret (RErr e) <-> refused F s e.
Proof.
  destruct F; cbn [rd].
  - rewrite <- c87_v4. split; intros E; [injection E as ->; reflexivity|now rewrite E].
  - apply c87_v6.
Qed.

Lemma c87_decided : forall (F : family) (s : str),
  (exists! a, reads F s a) /\ (forall e, ~ refused F s e) \/
  (forall a, ~ reads F s a) /\ (exists! e, refused F s e).
Proof.
  intros F s. destruct (rd_cases F s) as [(a & E & Ha)|(e & E & Hn)].
  - left. split.
    + exists a. split; [exact Ha|]. intros b Hb. apply rd_spec in Hb. congruence.
    + intros e K. apply rd_refused in K. congruence.
  - right. split; [exact Hn|]. exists e. split; [now apply rd_refused|]. intros e' K. apply rd_refused in K. congruence.
Qed.

Lemma c87_address : forall (s : str) (e : addr_error), parse_addr s = Ret (RErr e) <-> address_refused s e.
Proof.
  intros s e. unfold address_refused. rewrite <- c87_v4, <- c87_v6. rewrite <- !contains_in. unfold parse_addr.
  destruct (contains_char "." s); destruct (contains_char ":" s).
  - split; [intros E; right; right; split; [tauto|congruence]|].
    intros [(_ & K & _)|[(_ & K & _)|[_ ->]]]; [now destruct K..|reflexivity].
  - split.
    + intros E. left. repeat split; [discriminate|]. destruct (v4_from_str s); cbn [rbind] in E; [discriminate|congruence].
    + intros [(_ & _ & ->)|[(K & _)|[[K _] _]]]; [reflexivity|discriminate|now specialize (K eq_refl)].
  - split.
    + intros E. right. left. repeat split; [discriminate|].
      destruct (v6_from_str s) as [[b|e']| |]; cbn [rbind bind] in E; try discriminate. congruence.
    + intros [(K & _)|[(_ & _ & ->)|[[_ K] _]]]; [discriminate|reflexivity|now specialize (K eq_refl)].
  - split; [intros E; right; right; split; [tauto|congruence]|].
    intros [(K & _)|[(K & _)|[_ ->]]]; [discriminate..|reflexivity].
Qed.

Lemma c87_subnet : forall (R : Rust) (s : str) (e : netspec_error), parse_subnet s = Ret (RErr e) <-> subnet_refused usize_bits s e.
Proof.
  intros R s e. unfold subnet_refused. rewrite <- !contains_in. unfold parse_subnet.
  destruct (contains_char ":" s) eqn:Ec.
  - split.
    + intros E. left. split; [reflexivity|]. destruct (v6_from_str s) as [[b|e']| |] eqn:E6; cbn [bind] in E; try discriminate.
      exists e'. split; [now apply c87_v6|congruence].
    + intros [(_ & e' & K & ->)|[(_ & K & _)|(_ & K & _)]]; [|now destruct K..]. apply c87_v6 in K. now rewrite K.
  - destruct (contains_char "." s) eqn:Ed.
    + split.
      * intros E. right. left. repeat split; [discriminate|]. destruct (v4_from_str s) as [b|e'] eqn:E4; [discriminate|].
        exists e'. split; [now apply c87_v4|congruence].
      * intros [(K & _)|[(_ & _ & e' & K & ->)|(K & _)]]; [discriminate| |now destruct K]. apply c87_v4 in K. now rewrite K.
    + split.
      * intros E. right. right. repeat split; try discriminate. destruct (parse_uint 10 usize_max s) as [x|w] eqn:Ep; [discriminate|].
        apply c87_number in Ep; [|now left]. exists w. split; [exact Ep|congruence].
      * intros [(K & _)|[(K & _)|(_ & _ & w & K & ->)]]; [discriminate..|]. rewrite <- max_usize in K. apply c87_number in K; [|now left].
        now rewrite K.
Qed.

Lemma refused_not_read F s e : refused F s e -> forall a, ~ reads F s a.
Proof. intros K a Ha. apply rd_refused in K. apply rd_spec in Ha. congruence. Qed.

Lemma netspec_address : forall (R : Rust) (s : str) (e : addr_error),
  parse_netspec s = Ret (RErr (AddressError e)) <->
  exists F A w M, s = spec_text A w M /\ addr_shape F A /\ (mask_shape F M \/ decimal M) /\ refused F A e.
Proof.
  intros R s e. split.
  - intros E. destruct (netspec_cases R s) as [(G & A & w & M & -> & HA & HM & E')|[(G & A & w & M & -> & HA & HM & E')|[K E']]];
      rewrite E' in E; [| |discriminate].
    + exists G, A, w, M. repeat split; auto. apply rd_refused. unfold mask_result in E.
      destruct (rd G A) as [[a|e']| |]; cbn [bind] in E; try discriminate; [|congruence].
      destruct (rd G M) as [[a'|e']| |]; discriminate.
    + exists G, A, w, M. repeat split; auto. apply rd_refused.
      destruct (decimal_numeral M HM) as (x & Hx).
      destruct (rd_cases G A) as [(a & Ea & Ha)|(e' & Ea & Hn)].
      * destruct (cidr_result_spec R G A w M x Hx) as [(e' & K & Hn)|[(b & _ & _ & K)|[(b & _ & _ & K)|(b & n' & k & Hr & _ & K & Hd & Hn)]]]; try congruence.
        now apply Hn in Ha.
      * unfold cidr_result in E. rewrite Ea in *. cbn [bind] in E. congruence.
  - intros (F & A & w & M & -> & HA & HM & Hn). apply rd_refused in Hn. destruct HM as [HM|HM].
    + rewrite (netspec_mask R F A w M HA HM). unfold mask_result. now rewrite Hn.
    + rewrite (netspec_cidr R F A w M HA HM). unfold cidr_result. now rewrite Hn.
Qed.

Lemma netspec_bad_mask : forall (R : Rust) (s : str) (e : addr_error),
  parse_netspec s = Ret (RErr (MaskError e)) <->
  exists F A w M a, s = spec_text A w M /\ addr_shape F A /\ reads F A a /\ mask_shape F M /\ refused F M e.
Proof.
  intros R s e. split.
  - intros E. destruct (netspec_cases R s) as [(G & A & w & M & -> & HA & HM & E')|[(G & A & w & M & -> & HA & HM & E')|[K E']]];
      rewrite E' in E; [| |discriminate].
    + unfold mask_result in E. destruct (rd G A) as [[a|e']| |] eqn:Ea; cbn [bind] in E; try discriminate.
      exists G, A, w, M, a. repeat split; auto; [now apply rd_spec|]. apply rd_refused.
      destruct (rd G M) as [[a'|e']| |]; cbn [bind] in E; try discriminate. congruence.
    + destruct (decimal_numeral M HM) as (x & Hx).
      destruct (cidr_result_spec R G A w M x Hx) as [(e' & K & Hn)|[(b & _ & _ & K)|[(b & _ & _ & K)|(b & n' & k & Hr & _ & K & Hd & Hn)]]]; congruence.
  - intros (F & A & w & M & a & -> & HA & Hr & HM & Hn). apply rd_refused in Hn.
    rewrite (netspec_mask R F A w M HA HM). unfold mask_result. rewrite (proj2 (rd_spec F A a) Hr). cbn [bind]. now rewrite Hn.
Qed.

Lemma c87_netspec : forall (R : Rust) (s : str) (e : netspec_error),
  parse_netspec s = Ret (RErr e) <-> netspec_refused usize_bits s e.
Proof.
  intros R s e. unfold netspec_refused, looks_like. destruct e as [t|e|e|why|x max].
  - rewrite c32_unrecognized. split; intros [-> H]; (split; [reflexivity|]).
    + intros F A M (w & K). apply H. now exists F, A, w, M.
    + intros (F & A & w & M & K). apply (H F A M). now exists w.
  - rewrite netspec_address. split.
    + intros (F & A & w & M & E & HA & HM & K). exists F, A, M. split; [|exact K]. now exists w.
    + intros (F & A & M & (w & E & HA & HM) & K). now exists F, A, w, M.
  - rewrite netspec_bad_mask. split.
    + intros (F & A & w & M & a & E & HA & Ha & HM & K). exists F, A, M, a. split; [|auto]. exists w. auto.
    + intros (F & A & M & a & (w & E & HA & _) & Ha & HM & K). now exists F, A, w, M, a.
  - rewrite c32_huge_prefix. split.
    + intros (-> & F & A & w & M & a & x & E & HA & Ha & Hx & L). exists F, A, M, a, x. repeat split; try assumption.
      exists w. split; [exact E|]. split; [exact HA|]. right. now apply (numeral_decimal M x).
    + intros (F & A & M & a & x & (w' & E & HA & _) & Ha & Hx & L & ->). split; [reflexivity|]. now exists F, A, w', M, a, x.
  - rewrite c32_bad_prefix. split.
    + intros (F & A & w & M & a & E & HA & Ha & Hx & L & ->). exists F, A, M, a. repeat split; try assumption; try apply L.
      exists w. split; [exact E|]. split; [exact HA|]. right. now apply (numeral_decimal M x).
    + intros (F & A & M & a & (w & E & HA & _) & Ha & Hx & L & ->). now exists F, A, w, M, a.
Qed.

Lemma refused_nonsense `{R : Rust} s e : netspec_refused usize_bits s e -> nonsense s.
Proof.
  intros K F a n H. apply (c87_netspec R) in K. apply (c32_accepts R) in H. congruence.
Qed.

Lemma refused_no_address s e : address_refused s e -> no_address s.
Proof. intros K F a H. apply c87_address in K. apply c34_address in H. congruence. Qed.

Lemma nonsense_refused `{R : Rust} s : nonsense s -> exists e, netspec_refused usize_bits s e.
Proof.
  intros H. destruct (c31_returns R s) as ([n|e] & E).
  - exfalso. destruct n as [a n|a n]; [apply (H V4 a n)|apply (H V6 a n)]; apply (c32_accepts R); exact E.
  - exists e. now apply (c87_netspec R).
Qed.

Lemma no_address_refused s : no_address s -> exists e, address_refused s e.
Proof.
  intros H. destruct (addr_returns s) as ([p|e] & E).
  - exfalso. destruct p as [a|a]; [apply (H V4 a)|apply (H V6 a)]; apply c34_address; exact E.
  - exists e. now apply c87_address.
Qed.

Lemma c87_nonsense : forall (R : Rust) (s : str),
  (nonsense s <-> exists! e, netspec_refused usize_bits s e) /\ (nonsense s <-> exists e, netspec_refused usize_bits s e) /\
  (no_address s <-> exists! e, address_refused s e) /\ (no_address s <-> exists e, address_refused s e).
Proof.
  intros R s.
  assert ((exists e, netspec_refused usize_bits s e) -> exists! e, netspec_refused usize_bits s e) as U1.
  { intros (e & K). exists e. split; [exact K|]. intros e' K'. apply (c87_netspec R) in K, K'. congruence. }
  assert ((exists e, address_refused s e) -> exists! e, address_refused s e) as U2.
  { intros (e & K). exists e. split; [exact K|]. intros e' K'. apply c87_address in K, K'. congruence. }
  split; [|split; [|split]]; split.
  - intros H. apply U1. now apply nonsense_refused.
  - intros (e & K & _). eapply refused_nonsense, K.
  - apply nonsense_refused.
  - intros (e & K). eapply refused_nonsense, K.
  - intros H. apply U2. now apply no_address_refused.
  - intros (e & K & _). eapply refused_no_address, K.
  - apply no_address_refused.
  - intros (e & K). eapply refused_no_address, K.
Qed.

Ltac same R K := apply (c87_netspec R) in K;
  match goal with E : parse_netspec _ = Ret (RErr ?e') |- _ => rewrite K in E; injection E as <- end.

Lemma c87_show : forall (R : Rust) (prog : str) (pre post : list str) (s : str) (e : netspec_error),
  (forall w, hd_error (pre ++ s :: post) = Some w -> ~ In w command_words) ->
  (forall t, In t pre -> ~ nonsense t) -> netspec_refused usize_bits s e ->
  does (prog :: pre ++ s :: post) [Problem (MsgError e)] 1%Z.
Proof.
  intros R prog pre post s e Hw Hp K. pose proof (refused_nonsense s e K) as Hn.
  destruct (c62_show_error R prog pre post s Hw Hp Hn) as (e' & E & D). same R K. exact D.
Qed.

Lemma c87_minimize : forall (R : Rust) (F : family) (prog w : str) (pre post : list str) (s : str) (e : netspec_error),
  In w minimize_words -> Forall (of_family F) pre -> netspec_refused usize_bits s e ->
  does (prog :: w :: pre ++ s :: post) [Problem (MsgParsing e)] 1%Z.
Proof.
  intros R F prog w pre post s e Hw Hp K. pose proof (refused_nonsense s e K) as Hn.
  destruct (proj1 (c62_minimize_error R F prog w pre post s Hw Hp) Hn) as (e' & E & D). same R K. exact D.
Qed.

Lemma c87_enumerate : forall (R : Rust) (prog w : str) (ss : list str) (es : list netspec_error),
  In w enumerate_words -> ss <> [] -> Forall2 (netspec_refused usize_bits) ss es ->
  does (prog :: w :: ss) (map (fun se => Problem (MsgNetwork (fst se) (snd se))) (combine ss es)) 1%Z.
Proof.
  intros R prog w ss es Hw Hne HF. destruct (c62_enumerate R prog w ss Hw Hne) as (mss & z & Hf & Hz & D).
  assert (List.concat mss = map (fun se => Problem (MsgNetwork (fst se) (snd se))) (combine ss es)) as E.
  { clear - Hf HF. revert mss Hf. induction HF as [|s e ss es K _ IH]; intros mss Hf; inversion Hf as [|? ms ? mss' H Hf']; subst; [reflexivity|].
    cbn [List.concat combine map fst snd]. rewrite (IH _ Hf'). destruct H as [(F & a & n & l & Hm & _)|(_ & e' & E & ->)].
    - exfalso. now apply (refused_nonsense s e K) in Hm.
    - same R K. reflexivity. }
  assert (z = 1%Z) as ->.
  { destruct Hz as [[_ H]|[-> _]]; [|reflexivity]. exfalso. inversion HF as [|s e ss' es' K]; subst; [congruence|].
    apply (H s); [now left|]. eapply refused_nonsense, K. }
  rewrite E in D. exact D.
Qed.

Lemma c87_derange : forall (R : Rust) (F : family) (prog w s t : str) (a : addr F) (e : addr_error),
  In w derange_words ->
  (address_refused s e -> does [prog; w; s; t] [Problem (MsgFirstAddr e)] 1%Z) /\
  (address_text F s a -> address_refused t e -> does [prog; w; s; t] [Problem (MsgSecondAddr e)] 1%Z).
Proof.
  intros R F prog w s t a e Hw. destruct (c62_derange_error R F F prog w s t a a Hw) as (H1 & H2 & _). split.
  - intros K. destruct (H1 (refused_no_address s e K)) as (e' & E & D). apply c87_address in K. rewrite K in E. injection E as <-. exact D.
  - intros Ha K. destruct (H2 Ha (refused_no_address t e K)) as (e' & E & D). apply c87_address in K. rewrite K in E. injection E as <-. exact D.
Qed.

Lemma c87_resize : forall (R : Rust) (F : family) (prog w s t : str) (a : addr F) (n : net F) (e : netspec_error),
  In w resize_words ->
  (netspec_refused usize_bits s e -> does [prog; w; s; t] [Problem (MsgNetspec s e)] 1%Z) /\
  (means F s a n -> subnet_refused usize_bits t e -> does [prog; w; s; t] [Problem (MsgSubnet t e)] 1%Z).
Proof.
  intros R F prog w s t a n e Hw. destruct (c62_resize_error R F prog w s t a n Hw) as (H1 & H2 & _). split.
  - intros K. destruct (H1 (refused_nonsense s e K)) as (e' & E & D). same R K. exact D.
  - intros Hm K. apply c87_subnet in K. destruct (c34_subnet _ t) as (S6 & S4 & Sc).
    destruct H2 as (e' & E & D); [exact Hm| | |rewrite K in E; injection E as <-; exact D].
    + intros [|] m [Hne Hr]; [apply S4 in Hr; congruence|]. assert (parse_subnet t = Ret (ROk (PSMask6 m))) by (apply S6; now split). congruence.
    + intros p L W. assert (parse_subnet t = Ret (ROk (PSCidr p))) by (apply Sc; now split). congruence.
Qed.

Lemma c87_split : forall (R : Rust) (prog w s : str) (ss : list str) (cs : list Z) (e : netspec_error),
  In w split_words -> counts_text ss cs -> netspec_refused usize_bits s e ->
  does (prog :: w :: s :: ss) [Problem (MsgSplitNetspec s e)] 1%Z.
Proof.
  intros R prog w s ss cs e Hw Hc K.
  destruct (proj1 (c62_split_error R V4 prog w s ss [] [] cs Hw) (refused_nonsense s e K) Hc) as (e' & E & D). same R K. exact D.
Qed.
