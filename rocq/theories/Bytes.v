(** * Bytes: facts about bytes, bits and subnet masks as byte lists *)
From Verif Require Import RustBase BitManip Cidr Spec Bits.
From Coq Require Import ZifyBool ZifyNat ZifyN.
Ltac Zify.zify_post_hook ::= Z.div_mod_to_equations.

Lemma land_pow2_testbit b k : negb (N.land b (N.shiftl 1 k) =? 0) = N.testbit b k.
Proof.
  rewrite N.shiftl_1_l.
  assert (E : N.land b (2 ^ k) = if N.testbit b k then 2 ^ k else 0).
  { apply N.bits_inj. intros i. rewrite N.land_spec, N.pow2_bits_eqb.
    destruct (N.eqb_spec k i) as [->|Hne].
    - rewrite andb_true_r. destruct (N.testbit b i) eqn:Eb.
      + now rewrite N.pow2_bits_true.
      + now rewrite N.bits_0.
    - rewrite andb_false_r. destruct (N.testbit b k).
      + now rewrite N.pow2_bits_false.
      + now rewrite N.bits_0. }
  rewrite E. destruct (N.testbit b k); [|reflexivity].
  pose proof (pow2_pos k). destruct (N.eqb_spec (2 ^ k) 0); [lia|reflexivity].
Qed.

Lemma byte_bits_nbits b : byte_bits b = nbits 8 b.
Proof.
  unfold byte_bits, nbits. apply map_ext_in. intros i Hi. apply in_seq in Hi.
  rewrite land_pow2_testbit. f_equal. lia.
Qed.

Lemma bytes_to_bits_cons b bs : bytes_to_bits (b :: bs) = nbits 8 b ++ bytes_to_bits bs.
Proof. unfold bytes_to_bits. cbn [flat_map]. now rewrite byte_bits_nbits. Qed.

Lemma bytes_to_bits_length bs : List.length (bytes_to_bits bs) = (8 * List.length bs)%nat.
Proof.
  induction bs as [|b bs IH]; [reflexivity|].
  rewrite bytes_to_bits_cons, app_length, nbits_length, IH. cbn [List.length]. lia.
Qed.

Lemma be_value_acc bs acc :
  fold_left (fun acc b => acc * 256 + b) bs acc = acc * 256 ^ N.of_nat (List.length bs) + be_value bs.
Proof.
  unfold be_value. revert acc; induction bs as [|b bs IH]; intros acc; cbn [fold_left List.length].
  - change (256 ^ N.of_nat 0) with 1. lia.
  - rewrite IH, (IH (0 * 256 + b)). rewrite Nat2N.inj_succ, N.pow_succ_r'. lia.
Qed.

Lemma be_value_cons b bs : be_value (b :: bs) = b * 256 ^ N.of_nat (List.length bs) + be_value bs.
Proof. unfold be_value at 1. cbn [fold_left]. rewrite be_value_acc. lia. Qed.

Lemma pow_256 n : 256 ^ N.of_nat n = 2 ^ N.of_nat (8 * n).
Proof. change 256 with (2 ^ 8). rewrite <- N.pow_mul_r. f_equal. lia. Qed.

Lemma bval_bytes bs : u8s bs -> bval (bytes_to_bits bs) = be_value bs.
Proof.
  induction 1 as [|b bs Hb Hbs IH]; [reflexivity|].
  rewrite bytes_to_bits_cons, bval_app, bval_nbits by assumption.
  rewrite IH, be_value_cons, bytes_to_bits_length, pow_256. reflexivity.
Qed.

Lemma be_value_lt bs : u8s bs -> be_value bs < 256 ^ N.of_nat (List.length bs).
Proof.
  intros. rewrite <- bval_bytes by assumption.
  rewrite pow_256, <- bytes_to_bits_length. apply bval_lt.
Qed.

Lemma app_eq_len {T} (l1 l1' l2 l2' : list T) :
  List.length l1 = List.length l1' -> l1 ++ l2 = l1' ++ l2' -> l1 = l1' /\ l2 = l2'.
Proof.
  revert l1'; induction l1 as [|x l1 IH]; intros [|y l1'] Hl E; try discriminate.
  - auto.
  - injection E as -> E. injection Hl as Hl. destruct (IH _ Hl E) as [-> ->]. auto.
Qed.

Lemma bytes_to_bits_inj bs bs' :
  u8s bs -> u8s bs' -> bytes_to_bits bs = bytes_to_bits bs' -> bs = bs'.
Proof.
  intros H. revert bs'. induction H as [|b bs Hb Hbs IH]; intros bs' H' E.
  - destruct bs'; [reflexivity|]. apply (f_equal (@List.length bool)) in E.
    rewrite !bytes_to_bits_length in E. cbn in E. lia.
  - destruct H' as [|b' bs' Hb' Hbs'].
    + apply (f_equal (@List.length bool)) in E. rewrite !bytes_to_bits_length in E. cbn in E. lia.
    + rewrite !bytes_to_bits_cons in E.
      apply app_eq_len in E; [|now rewrite !nbits_length]. destruct E as [E1 E2].
      f_equal.
      * now apply (nbits_inj 8).
      * now apply IH.
Qed.

(** ** bits_to_bytes *)

Lemma bits_to_bytes_loop_shift bits i cur :
  bits_to_bytes_loop bits (i + 8) cur = bits_to_bytes_loop bits i cur.
Proof.
  revert i cur; induction bits as [|b bits IH]; intros i cur; cbn [bits_to_bytes_loop];
    replace ((i + 8) mod 8)%nat with (i mod 8)%nat
      by (rewrite <- (Nat.mod_add i 1 8) by lia; reflexivity); [reflexivity|].
  change (S (i + 8)) with (S i + 8)%nat. rewrite !IH. reflexivity.
Qed.

Lemma bits_to_bytes_chunk b0 b1 b2 b3 b4 b5 b6 b7 rest :
  bits_to_bytes ([b0; b1; b2; b3; b4; b5; b6; b7] ++ rest) =
  bval [b0; b1; b2; b3; b4; b5; b6; b7] :: bits_to_bytes rest.
Proof.
  unfold bits_to_bytes.
  transitivity (bval [b0; b1; b2; b3; b4; b5; b6; b7] :: bits_to_bytes_loop rest 8 0).
  - destruct b0, b1, b2, b3, b4, b5, b6, b7; reflexivity.
  - f_equal. apply (bits_to_bytes_loop_shift rest 0 0).
Qed.

Lemma list8 {T} (l : list T) :
  List.length l = 8%nat -> exists b0 b1 b2 b3 b4 b5 b6 b7, l = [b0; b1; b2; b3; b4; b5; b6; b7].
Proof.
  intros. do 8 (destruct l as [|? l]; [discriminate|]).
  destruct l; [|discriminate]. repeat eexists.
Qed.

Lemma bits_to_bytes_app l rest :
  List.length l = 8%nat -> bits_to_bytes (l ++ rest) = bval l :: bits_to_bytes rest.
Proof.
  intros Hl. destruct (list8 l Hl) as (b0 & b1 & b2 & b3 & b4 & b5 & b6 & b7 & ->).
  apply bits_to_bytes_chunk.
Qed.

Lemma bits_to_bytes_short l :
  (0 < List.length l < 8)%nat ->
  bits_to_bytes l = [bval (l ++ repeat false (8 - List.length l))].
Proof.
  intros Hl. unfold bits_to_bytes.
  do 8 (destruct l as [|[] l]; [cbn in Hl; try lia; reflexivity| |]);
    cbn in Hl; lia.
Qed.

Lemma bytes_bits_bytes bs : u8s bs -> bits_to_bytes (bytes_to_bits bs) = bs.
Proof.
  induction 1 as [|b bs Hb Hbs IH]; [reflexivity|].
  rewrite bytes_to_bits_cons, bits_to_bytes_app by apply nbits_length.
  rewrite IH, bval_nbits by assumption. reflexivity.
Qed.

Lemma list_ind8 (P : list bool -> Prop) :
  (forall l, (List.length l < 8)%nat -> P l) ->
  (forall l rest, List.length l = 8%nat -> P rest -> P (l ++ rest)) ->
  forall l, P l.
Proof.
  intros Hs Hr l. remember (List.length l) as n eqn:En.
  revert l En. induction n as [n IH] using (well_founded_induction Wf_nat.lt_wf). intros l ->.
  destruct (Nat.lt_ge_cases (List.length l) 8) as [H|H]; [now apply Hs|].
  rewrite <- (firstn_skipn 8 l). apply Hr.
  - rewrite firstn_length. lia.
  - eapply IH; [|reflexivity]. rewrite skipn_length. lia.
Qed.

Lemma bits_to_bytes_u8 l : u8s (bits_to_bytes l).
Proof.
  induction l as [l Hl|l rest Hl IH] using list_ind8.
  - destruct l as [|b l]; [constructor|].
    rewrite bits_to_bytes_short by (cbn in *; lia). constructor; [|constructor].
    eapply N.lt_le_trans; [apply bval_lt|].
    rewrite app_length, repeat_length. change 256 with (2 ^ 8). apply N.pow_le_mono_r; [lia|]. lia.
  - rewrite bits_to_bytes_app by assumption. constructor; [|assumption].
    pose proof (bval_lt l). rewrite Hl in *. assumption.
Qed.

Lemma bits_bytes_bits l :
  bytes_to_bits (bits_to_bytes l) = l ++ repeat false ((8 - List.length l mod 8) mod 8).
Proof.
  induction l as [l Hl|l rest Hl IH] using list_ind8.
  - destruct l as [|b l]; [reflexivity|].
    rewrite bits_to_bytes_short by (cbn in *; lia).
    rewrite bytes_to_bits_cons. cbn [bytes_to_bits flat_map]. rewrite app_nil_r.
    rewrite (Nat.mod_small (List.length (b :: l)) 8) by lia.
    rewrite Nat.mod_small by (cbn [List.length]; lia).
    apply nbits_bval. rewrite app_length, repeat_length. lia.
  - rewrite bits_to_bytes_app by assumption.
    rewrite bytes_to_bits_cons, IH, nbits_bval by assumption.
    rewrite app_length, Hl, <- app_assoc. do 4 f_equal.
    rewrite Nat.add_comm. rewrite <- (Nat.mod_add (List.length rest) 1 8) by lia. reflexivity.
Qed.

Lemma bits_bytes_bits_exact l k :
  List.length l = (8 * k)%nat ->
  bytes_to_bits (bits_to_bytes l) = l /\ List.length (bits_to_bytes l) = k.
Proof.
  intros Hl. assert (E : bytes_to_bits (bits_to_bytes l) = l).
  { rewrite bits_bytes_bits, Hl, Nat.mul_comm, Nat.mod_mul by lia. cbn. apply app_nil_r. }
  split; [exact E|]. apply (f_equal (@List.length bool)) in E.
  rewrite bytes_to_bits_length in E. lia.
Qed.

(** ** Sum of bit counts of bytes *)
Lemma sum_N_acc l acc : fold_left N.add l acc = acc + sum_N l.
Proof.
  unfold sum_N. revert acc; induction l as [|x l IH]; intros acc; cbn [fold_left]; [lia|].
  rewrite IH, (IH (0 + x)). lia.
Qed.
Lemma sum_N_cons x l : sum_N (x :: l) = x + sum_N l.
Proof. unfold sum_N at 1. cbn [fold_left]. rewrite sum_N_acc. lia. Qed.

Lemma sum_popcount bs : u8s bs -> sum_N (map popcount bs) = N.of_nat (ctrue (bytes_to_bits bs)).
Proof.
  induction 1 as [|b bs Hb Hbs IH]; [reflexivity|].
  cbn [map]. rewrite sum_N_cons, IH, bytes_to_bits_cons, ctrue_app.
  rewrite (popcount_nbits 8) by assumption. lia.
Qed.

(** ** Contiguous bit lists *)
Fixpoint contig (l : list bool) (k : nat) : Prop :=
  match l, k with
  | [], O => True
  | [], S _ => False
  | b :: l', S k' => b = true /\ contig l' k'
  | b :: l', O => b = false /\ contig l' O
  end.

Lemma contig_repeat l k :
  contig l k <-> (k <= List.length l)%nat /\ l = repeat true k ++ repeat false (List.length l - k).
Proof.
  revert k; induction l as [|b l IH]; intros [|k]; cbn [contig List.length].
  - split; [intros _; split; [lia|reflexivity] | auto].
  - split; [tauto | lia].
  - rewrite IH. rewrite Nat.sub_0_r. cbn [repeat app]. rewrite Nat.sub_0_r. split.
    + intros [-> [_ E]]. split; [lia|]. exact (f_equal (cons false) E).
    + intros [_ E]. injection E as -> E. auto with arith.
  - rewrite IH. cbn [repeat app Nat.sub]. split.
    + intros [-> [Hk E]]. split; [lia|]. exact (f_equal (cons true) E).
    + intros [Hk E]. injection E as -> E. split; [reflexivity|]. split; [lia|exact E].
Qed.

Lemma contig_0 l : contig l 0 <-> l = repeat false (List.length l).
Proof. rewrite contig_repeat. rewrite Nat.sub_0_r. cbn. split; [tauto|]. split; [lia|assumption]. Qed.

Lemma contig_unique l k k' : contig l k -> contig l k' -> k = k'.
Proof.
  revert k k'; induction l as [|b l IH]; intros [|k] [|k']; cbn; try tauto; intros [-> H] [E H'];
    try discriminate. f_equal. eauto.
Qed.

Lemma contig_app_full l1 l2 k :
  contig (repeat true l1 ++ l2) (l1 + k) <-> contig l2 k.
Proof. induction l1; cbn; [reflexivity|]. rewrite IHl1. tauto. Qed.

Lemma contig_app_part l1 l2 k :
  (k < List.length l1)%nat -> (contig (l1 ++ l2) k <-> contig l1 k /\ contig l2 0).
Proof.
  revert k; induction l1 as [|b l1 IH]; intros k Hk; cbn in Hk; [lia|].
  destruct k as [|k]; cbn [contig app].
  - destruct l1 as [|c l1].
    + cbn. tauto.
    + rewrite IH by (cbn; lia). tauto.
  - rewrite IH by lia. tauto.
Qed.

Lemma contig_bval l k :
  contig l k -> bval l = 2 ^ N.of_nat (List.length l) - 2 ^ N.of_nat (List.length l - k).
Proof.
  rewrite contig_repeat. intros [Hk E]. rewrite E at 1.
  rewrite bval_app, bval_repeat_true, bval_repeat_false, repeat_length.
  rewrite N.add_0_r, N.mul_sub_distr_r, <- N.pow_add_r. rewrite N.mul_1_l. do 3 f_equal. lia.
Qed.

Lemma contig_ctrue l k : contig l k -> ctrue l = k.
Proof.
  rewrite contig_repeat. intros [_ ->]. rewrite ctrue_app, ctrue_repeat_true, ctrue_repeat_false. lia.
Qed.

(** ** The 256-entry table *)
Definition table_ok (i : nat) : bool :=
  let n := nth i SUBNET_MASK_BYTE_TO_PREFIX XXX in
  let bits := nbits 8 (N.of_nat i) in
  let is k := if list_eq_dec bool_dec bits (repeat true k ++ repeat false (8 - k)) then true else false in
  ((n =? XXX) && forallb (fun k => negb (is k)) (seq 0 9)) || ((n <=? 8) && is (N.to_nat n)).

Lemma table_all : forallb table_ok (seq 0 256) = true.
Proof. vm_compute. reflexivity. Qed.

Lemma table_spec b :
  b < 256 ->
  let n := nth (N.to_nat b) SUBNET_MASK_BYTE_TO_PREFIX XXX in
  (n = XXX /\ forall k, ~ contig (nbits 8 b) k) \/ (n <= 8 /\ contig (nbits 8 b) (N.to_nat n)).
Proof.
  intros Hb n.
  pose proof (proj1 (forallb_forall _ _) table_all (N.to_nat b)) as H.
  rewrite in_seq in H. specialize (H ltac:(lia)). unfold table_ok in H.
  rewrite N2Nat.id in H. fold n in H. cbv zeta in H.
  apply orb_true_iff in H. destruct H as [H|H]; apply andb_true_iff in H; destruct H as [H1 H2].
  - left. split; [now apply N.eqb_eq|]. intros k Hk. apply contig_repeat in Hk.
    rewrite nbits_length in Hk. destruct Hk as [Hk E].
    pose proof (proj1 (forallb_forall _ _) H2 k) as H. rewrite in_seq in H. specialize (H ltac:(lia)).
    destruct (list_eq_dec bool_dec (nbits 8 b) (repeat true k ++ repeat false (8 - k))); [discriminate|].
    contradiction.
  - right. apply N.leb_le in H1. split; [assumption|]. apply contig_repeat. rewrite nbits_length.
    split; [lia|].
    destruct (list_eq_dec bool_dec (nbits 8 b) _); [assumption|discriminate].
Qed.

Lemma prefix_loop_true bs c p :
  u8s bs -> (prefix_loop bs true c = Some p <-> p = c /\ contig (bytes_to_bits bs) 0).
Proof.
  intros H. revert c. induction H as [|b bs Hb Hbs IH]; intros c; cbn [prefix_loop].
  - cbn. split; [intros [= ->]; auto | intros [-> _]; reflexivity].
  - rewrite bytes_to_bits_cons, contig_app_part by (rewrite nbits_length; lia).
    pose proof (table_spec b Hb) as T. cbv zeta in T.
    set (n := nth (N.to_nat b) SUBNET_MASK_BYTE_TO_PREFIX XXX) in *.
    destruct T as [[E T]|[Hn T]].
    + rewrite E. cbn [N.eqb XXX Pos.eqb]. split; [discriminate|]. intros [_ [H _]]. now apply T in H.
    + destruct (N.eqb_spec n XXX); [unfold XXX in *; lia|].
      destruct (N.eqb_spec n 8) as [E|].
      { split; [discriminate|]. intros [_ [H _]]. pose proof (contig_unique _ _ _ T H). lia. }
      destruct (N.eqb_spec n 0) as [E|].
      { rewrite IH. rewrite E in T. tauto. }
      split; [discriminate|]. intros [_ [H _]]. pose proof (contig_unique _ _ _ T H). lia.
Qed.

Lemma prefix_loop_false bs c p :
  u8s bs ->
  (prefix_loop bs false c = Some p <->
   exists k, p = c + N.of_nat k /\ contig (bytes_to_bits bs) k).
Proof.
  intros H. revert c. induction H as [|b bs Hb Hbs IH]; intros c; cbn [prefix_loop].
  - split.
    + intros [= ->]. exists 0%nat. split; [lia|exact I].
    + intros [[|k] [-> H]]; [|destruct H]. f_equal. lia.
  - rewrite bytes_to_bits_cons.
    pose proof (table_spec b Hb) as T. cbv zeta in T.
    set (n := nth (N.to_nat b) SUBNET_MASK_BYTE_TO_PREFIX XXX) in *.
    destruct T as [[E T]|[Hn T]].
    + rewrite E. cbn [N.eqb XXX Pos.eqb]. split; [discriminate|].
      intros [k [-> H]]. exfalso.
      destruct (Nat.lt_ge_cases k 8) as [Hk|Hk].
      * apply contig_app_part in H; [|now rewrite nbits_length]. destruct H as [H _]. now apply T in H.
      * apply (T 8%nat). apply contig_repeat. rewrite nbits_length. split; [lia|].
        apply contig_repeat in H. destruct H as [_ H].
        rewrite app_length, nbits_length in H.
        replace k with (8 + (k - 8))%nat in H at 1 by lia.
        rewrite repeat_app, <- app_assoc in H.
        apply app_eq_len in H; [|now rewrite nbits_length, repeat_length].
        destruct H as [H _]. rewrite H. reflexivity.
    + destruct (N.eqb_spec n XXX); [unfold XXX in *; lia|].
      destruct (N.eqb_spec n 8) as [E|].
      { rewrite E in T. apply contig_repeat in T. destruct T as [_ T]. rewrite nbits_length in T.
        change (N.to_nat 8) with 8%nat in T. cbn [Nat.sub repeat] in T. rewrite app_nil_r in T.
        rewrite T. rewrite IH. split.
        - intros [k [-> H]]. exists (8 + k)%nat. split; [lia|].
          apply (contig_app_full 8). exact H.
        - intros [k [-> H]]. destruct (Nat.lt_ge_cases k 8) as [Hk|Hk].
          + exfalso. apply contig_app_part in H; [|exact Hk]. destruct H as [H _].
            apply contig_repeat in H. destruct H as [_ H].
            do 8 (destruct k as [|k]; [discriminate|]). lia.
          + exists (k - 8)%nat. split; [lia|]. rewrite <- (contig_app_full 8 (bytes_to_bits bs)).
            replace (8 + (k - 8))%nat with k by lia. exact H. }
      assert (Hlt : forall k, contig (nbits 8 b ++ bytes_to_bits bs) k <->
                     k = N.to_nat n /\ contig (bytes_to_bits bs) 0).
      { intros k. split.
        - intros H. destruct (Nat.lt_ge_cases k 8) as [Hk|Hk].
          + apply contig_app_part in H; [|now rewrite nbits_length]. destruct H as [H H'].
            split; [|assumption]. eapply contig_unique; eassumption.
          + exfalso. apply contig_repeat in H. destruct H as [_ H].
            rewrite app_length, nbits_length in H.
            replace k with (8 + (k - 8))%nat in H at 1 by lia.
            rewrite repeat_app, <- app_assoc in H.
            apply app_eq_len in H; [|now rewrite nbits_length, repeat_length].
            destruct H as [H _]. rewrite H in T.
            assert (contig (repeat true 8) 8) by (cbn; tauto).
            pose proof (contig_unique _ _ _ T H0). lia.
        - intros [-> H]. apply contig_app_part; [rewrite nbits_length; lia|]. tauto. }
      destruct (N.eqb_spec n 0) as [E|].
      { rewrite prefix_loop_true by assumption. split.
        - intros [-> H]. exists 0%nat. split; [lia|]. apply Hlt. split; [lia|assumption].
        - intros [k [-> H]]. apply Hlt in H. destruct H as [-> H]. split; [lia|assumption]. }
      rewrite prefix_loop_true by assumption. split.
      * intros [-> H]. exists (N.to_nat n). split; [lia|]. apply Hlt. tauto.
      * intros [k [-> H]]. apply Hlt in H. destruct H as [-> H]. split; [lia|assumption].
Qed.

Lemma prefix_from_bytes_spec bs p :
  u8s bs ->
  (prefix_from_subnet_mask_bytes bs = Some p <-> contig (bytes_to_bits bs) (N.to_nat p)).
Proof.
  intros H. unfold prefix_from_subnet_mask_bytes. rewrite prefix_loop_false by assumption. split.
  - intros [k [-> Hk]]. rewrite N.add_0_l, Nat2N.id. exact Hk.
  - intros Hk. exists (N.to_nat p). split; [lia|exact Hk].
Qed.

(** ** subnet_mask_bytes_from_prefix *)
Lemma mask_bytes_length p n : List.length (subnet_mask_bytes_from_prefix p n) = n.
Proof.
  revert p; induction n as [|n IH]; intros p; [reflexivity|].
  cbn [subnet_mask_bytes_from_prefix].
  destruct (0 <? p); [destruct (8 <=? p)|]; cbn [List.length]; rewrite ?IH, ?repeat_length; reflexivity.
Qed.

Lemma bytes_to_bits_repeat0 n : bytes_to_bits (repeat 0 n) = repeat false (8 * n).
Proof.
  induction n; [reflexivity|]. cbn [repeat]. rewrite bytes_to_bits_cons, IHn.
  replace (8 * S n)%nat with (8 + 8 * n)%nat by lia. rewrite repeat_app. reflexivity.
Qed.

Lemma cidr_byte_spec p :
  p < 8 -> nth (N.to_nat p) CIDR_BYTE_TO_PREFIX 0 < 256 /\
  nbits 8 (nth (N.to_nat p) CIDR_BYTE_TO_PREFIX 0) = repeat true (N.to_nat p) ++ repeat false (8 - N.to_nat p).
Proof.
  intros Hp.
  assert (H : In (N.to_nat p) (seq 0 8)) by (apply in_seq; lia).
  revert H. generalize (N.to_nat p). intros k Hk.
  cbn in Hk. repeat (destruct Hk as [<-|Hk]; [split; reflexivity|]). destruct Hk.
Qed.

Lemma mask_bytes_u8 p n : u8s (subnet_mask_bytes_from_prefix p n).
Proof.
  revert p; induction n as [|n IH]; intros p; [constructor|].
  assert (Hr : forall k, u8s (repeat 0 k)).
  { induction k; constructor; [lia|assumption]. }
  cbn [subnet_mask_bytes_from_prefix].
  destruct (0 <? p); [destruct (N.leb_spec 8 p)|].
  - constructor; [lia|apply IH].
  - constructor; [|apply Hr]. now apply cidr_byte_spec.
  - apply (Hr (S n)).
Qed.

Lemma mask_bytes_bits p n :
  bytes_to_bits (subnet_mask_bytes_from_prefix p n) =
  repeat true (Nat.min (N.to_nat p) (8 * n)) ++ repeat false (8 * n - Nat.min (N.to_nat p) (8 * n)).
Proof.
  revert p; induction n as [|n IH]; intros p.
  - rewrite Nat.min_0_r. reflexivity.
  - cbn [subnet_mask_bytes_from_prefix].
    destruct (N.ltb_spec 0 p); [destruct (N.leb_spec 8 p)|].
    + rewrite bytes_to_bits_cons, IH. change (nbits 8 255) with (repeat true 8).
      rewrite app_assoc, <- repeat_app. f_equal; f_equal; lia.
    + rewrite bytes_to_bits_cons, bytes_to_bits_repeat0.
      destruct (cidr_byte_spec p) as [_ ->]; [assumption|].
      rewrite <- app_assoc, <- repeat_app. f_equal; f_equal; lia.
    + rewrite bytes_to_bits_repeat0. replace (Nat.min (N.to_nat p) (8 * S n)) with 0%nat by lia.
      rewrite Nat.sub_0_r. reflexivity.
Qed.

Lemma mask_bytes_contig p n :
  contig (bytes_to_bits (subnet_mask_bytes_from_prefix p n)) (Nat.min (N.to_nat p) (8 * n)).
Proof.
  apply contig_repeat. rewrite bytes_to_bits_length, mask_bytes_length. split; [lia|].
  apply mask_bytes_bits.
Qed.
