(** * TextFacts: digits, numerals, splitting and joining *)
From Verif Require Import RustBase Addr Spec SpecText.
From Coq Require Import ZifyBool ZifyNat ZifyN.
Ltac Zify.zify_post_hook ::= idtac.

(** ** Digits *)
Definition rdx (r : N) : Prop := r = 10 \/ r = 16.

Lemma to_digit_below r c : rdx r -> to_digit r c = digit_below r c.
Proof.
  intros [->| ->]; destruct c as [b0 b1 b2 b3 b4 b5 b6 b7];
    destruct b0, b1, b2, b3, b4, b5, b6, b7; vm_compute; reflexivity.
Qed.

Lemma digit_char_digit d : d < 16 -> digit (digit_char d) = Some d.
Proof.
  intros H. assert (In d (map N.of_nat (seq 0 16))) as I.
  { apply in_map_iff. exists (N.to_nat d). rewrite in_seq. lia. }
  cbn in I. repeat (destruct I as [<-|I]; [reflexivity|]). contradiction.
Qed.

Lemma digit_char_below r d : rdx r -> d < r -> digit_below r (digit_char d) = Some d.
Proof.
  intros Hr H. unfold digit_below. rewrite digit_char_digit by (destruct Hr; subst; lia).
  destruct (N.ltb_spec d r); [reflexivity|lia].
Qed.

Lemma digit_char_lower d : d < 16 -> ~ upper_case (digit_char d).
Proof.
  intros H. assert (In d (map N.of_nat (seq 0 16))) as I.
  { apply in_map_iff. exists (N.to_nat d). rewrite in_seq. lia. }
  cbn in I. unfold upper_case.
  repeat (destruct I as [<-|I]; [vm_compute; intuition discriminate|]). contradiction.
Qed.

Lemma digit_below_lt r c d : digit_below r c = Some d -> d < r.
Proof.
  unfold digit_below. destruct (digit c) as [x|]; [|discriminate].
  destruct (N.ltb_spec x r); intros E; [now inversion E; subst|discriminate].
Qed.

Lemma digit_below_not r c : digit c = None -> digit_below r c = None.
Proof. unfold digit_below. now intros ->. Qed.

(** ** Numerals *)
Lemma numeral_from_ge r acc s x : 1 <= r -> numeral_from r acc s = Some x -> acc <= x.
Proof.
  intros Hr. revert acc. induction s as [|c s IH]; intros acc; cbn [numeral_from].
  - intros E. inversion E. lia.
  - destruct (digit_below r c) as [d|]; [|discriminate]. intros E. apply IH in E. nia.
Qed.

Lemma parse_digits_spec r max acc s x : rdx r -> acc <= max ->
  parse_digits r max acc s = ROk x <-> numeral_from r acc s = Some x /\ x <= max.
Proof.
  intros Hr. assert (1 <= r) as Hr1 by (destruct Hr; subst; lia).
  revert acc. induction s as [|c s IH]; intros acc Ha; cbn [parse_digits numeral_from].
  - split; [intros E; inversion E; subst; auto|intros [E _]; now inversion E].
  - rewrite to_digit_below by assumption.
    destruct (digit_below r c) as [d|]; [|split; [discriminate|now intros [E _]]].
    assert (acc * r + d <= max \/ max < acc * r + d) as [Hle|Hlt] by lia.
    + destruct (N.ltb_spec max (acc * r)); [lia|].
      destruct (N.ltb_spec max (acc * r + d)); [lia|]. now apply IH.
    + split.
      * destruct (N.ltb_spec max (acc * r)); [discriminate|].
        destruct (N.ltb_spec max (acc * r + d)); [discriminate|lia].
      * intros [E Hx]. apply numeral_from_ge in E; [|assumption]. lia.
Qed.

Lemma numeral_sign r c s : digit c = None -> numeral r (c :: s) = None.
Proof. intros E. unfold numeral. cbn [numeral_from]. now rewrite digit_below_not. Qed.

Lemma parse_uint_spec r max s x : rdx r ->
  parse_uint r max s = ROk x <-> written r s x /\ x <= max.
Proof.
  intros Hr. unfold parse_uint, written. destruct s as [|c s'].
  { split; [discriminate|]. intros [[E|(s' & E & _)] _]; discriminate. }
  destruct (Ascii.eqb_spec c "+") as [->|Hp]; cbn [orb].
  - rewrite (numeral_sign r "+" s') by reflexivity. destruct s' as [|c' s'].
    { split; [discriminate|]. intros [[E|(s' & E & H)] _]; [discriminate|].
      inversion E; subst. discriminate. }
    rewrite parse_digits_spec by (assumption || lia).
    split; intros [H Hx]; split; try assumption.
    + right. now exists (c' :: s').
    + destruct H as [H|(t & E & H)]; [discriminate|]. inversion E; subst. exact H.
  - assert (parse_digits r max 0 (c :: s') = ROk x <->
            (numeral r (c :: s') = Some x \/
             exists t, c :: s' = "+"%char :: t /\ numeral r t = Some x) /\ x <= max) as K.
    { rewrite parse_digits_spec by (assumption || lia). split; intros [H Hx]; split; try assumption.
      - now left.
      - destruct H as [H|(t & E & H)]; [exact H|]. now inversion E; subst. }
    destruct (Ascii.eqb_spec c "-") as [->|Hm]; [|exact K].
    destruct s' as [|c' s']; [|exact K].
    rewrite <- K. cbn [parse_digits]. rewrite to_digit_below by assumption.
    rewrite digit_below_not by reflexivity. split; discriminate.
Qed.

(** ** Formatting *)
Lemma fmt_loop_spec r f : rdx r -> forall n acc, n < 2 ^ N.of_nat f ->
  exists ds, fmt_radix_loop f r n acc = ds ++ acc /\ (n = 0 -> f <> O -> ds = lit "0") /\
    Forall (fun c => exists d, d < r /\ c = digit_char d) ds /\
    (forall b, 0 < n -> exists k, numeral_from r b ds = Some (b * r ^ k + n)) /\
    (0 < n -> exists d t, ds = digit_char d :: t /\ 0 < d < r).
Proof.
  intros Hr. assert (2 <= r) as Hr1 by (destruct Hr; subst; lia).
  induction f as [|f IH]; intros n acc Hn.
  - cbn in Hn. assert (n = 0) as -> by lia. exists []. repeat split; try constructor; try lia.
  - cbn [fmt_radix_loop].
    assert (n mod r < r) as Hm by (apply N.mod_lt; lia).
    pose proof (N.div_mod n r ltac:(lia)) as E.
    destruct (N.eqb_spec (n / r) 0) as [E0|E0].
    + assert (n mod r = n) as En by (rewrite E0 in E; lia). rewrite En in *.
      exists [digit_char n]. repeat split.
      * now intros -> _.
      * constructor; [|constructor]. now exists n.
      * intros b _. exists 1. cbn [numeral_from]. rewrite digit_char_below by assumption.
        now rewrite N.pow_1_r.
      * intros H0. exists n, []. auto.
    + assert (0 < n / r) as Hpos by (now apply N.neq_0_lt_0).
      destruct (IH (n / r) (digit_char (n mod r) :: acc)) as (ds & Ed & _ & Hf & Hv & Hh).
      { apply N.div_lt_upper_bound; [lia|]. rewrite Nat2N.inj_succ, N.pow_succ_r' in Hn. nia. }
      exists (ds ++ [digit_char (n mod r)]). rewrite Ed, <- app_assoc. repeat split.
      * intros -> _. rewrite N.div_0_l in E0 by lia. now destruct E0.
      * apply Forall_app. split; [exact Hf|]. constructor; [|constructor]. eauto.
      * intros b _. destruct (Hv b Hpos) as (k & Hk). exists (k + 1).
        clear -Hk E Hr Hm.
        assert (forall s a y, numeral_from r a s = Some y ->
                  numeral_from r a (s ++ [digit_char (n mod r)]) = Some (y * r + n mod r)) as A.
        { induction s as [|c s IH]; intros a y; cbn [numeral_from List.app].
          - intros Ea. inversion Ea; subst. now rewrite digit_char_below by assumption.
          - destruct (digit_below r c); [apply IH|discriminate]. }
        rewrite (A _ _ _ Hk). f_equal. rewrite N.pow_add_r, N.pow_1_r.
        rewrite N.mul_add_distr_r. rewrite (N.mul_comm (n / r) r), N.mul_assoc, <- N.add_assoc.
        now rewrite <- E.
      * intros _. destruct (Hh Hpos) as (d & t & -> & Hd). exists d, (t ++ [digit_char (n mod r)]). auto.
Qed.

Lemma size_nat_lt n : n < 2 ^ N.of_nat (S (N.size_nat n)).
Proof.
  destruct n as [|p]; [reflexivity|].
  rewrite Nat2N.inj_succ, N.pow_succ_r'.
  replace (N.of_nat (N.size_nat (N.pos p))) with (N.size (N.pos p)).
  - pose proof (N.size_gt (N.pos p)). lia.
  - cbn [N.size N.size_nat]. clear. induction p; cbn [Pos.size Pos.size_nat]; lia.
Qed.

Lemma fmt_radix_chars r n : rdx r ->
  Forall (fun c => exists d, d < r /\ c = digit_char d) (fmt_radix r n).
Proof.
  intros Hr. destruct (fmt_loop_spec r _ Hr n [] (size_nat_lt n)) as (ds & E & _ & Hf & _).
  unfold fmt_radix. rewrite E, app_nil_r. exact Hf.
Qed.

Lemma fmt_radix_nonempty r n : rdx r -> fmt_radix r n <> [].
Proof.
  intros Hr. destruct (fmt_loop_spec r _ Hr n [] (size_nat_lt n)) as (ds & E & Hz & _ & _ & Hh).
  unfold fmt_radix. rewrite E, app_nil_r. destruct (N.eq_dec n 0) as [E0|E0].
  - rewrite Hz by congruence. discriminate.
  - destruct Hh as (d & t & -> & _); [lia|discriminate].
Qed.

Lemma fmt_radix_numeral r n : rdx r -> numeral r (fmt_radix r n) = Some n.
Proof.
  intros Hr. pose proof (fmt_radix_nonempty r n Hr) as Hne.
  destruct (fmt_loop_spec r _ Hr n [] (size_nat_lt n)) as (ds & E & Hz & _ & Hv & Hh).
  unfold fmt_radix in *. rewrite E, app_nil_r in *. destruct (N.eq_dec n 0) as [E0|E0].
  - rewrite Hz by congruence. subst. destruct Hr; subst; reflexivity.
  - destruct (Hv 0) as (k & Hk); [lia|]. unfold numeral. destruct ds; [congruence|].
    now rewrite Hk, N.mul_0_l.
Qed.

Lemma fmt_radix_usual r n : rdx r -> usual r n (fmt_radix r n).
Proof.
  intros Hr. split; [now apply fmt_radix_numeral|]. split.
  - eapply Forall_impl; [|now apply fmt_radix_chars]. cbv beta. intros c (d & Hd & ->).
    apply digit_char_lower. destruct Hr; subst; lia.
  - intros s'. destruct (fmt_loop_spec r _ Hr n [] (size_nat_lt n)) as (ds & E & Hz & _ & _ & Hh).
    unfold fmt_radix. rewrite E, app_nil_r. destruct (N.eq_dec n 0) as [E0|E0].
    + rewrite Hz by congruence. intros E1. now inversion E1.
    + destruct Hh as (d & t & -> & Hd); [lia|]. intros E1. exfalso.
      assert (digit (digit_char d) = Some 0) as E2 by (inversion E1 as [E2]; now rewrite E2).
      rewrite digit_char_digit in E2 by (destruct Hr; subst; lia). inversion E2. lia.
Qed.

(** Characters of a numeral. *)
Lemma numeral_from_chars r acc s x : numeral_from r acc s = Some x -> Forall (fun c => digit c <> None) s.
Proof.
  revert acc. induction s as [|c s IH]; intros acc; cbn [numeral_from]; [constructor|].
  destruct (digit_below r c) eqn:E; [|discriminate]. intros H. constructor; [|eapply IH; eauto].
  intros E1. rewrite digit_below_not in E by assumption. discriminate.
Qed.

Lemma written_chars r s x : written r s x -> Forall (fun c => digit c <> None \/ c = "+"%char) s.
Proof.
  intros [H|(s' & -> & H)].
  - destruct s as [|c s]; [discriminate|]. apply numeral_from_chars in H. eapply Forall_impl; [|exact H]. auto.
  - constructor; [now right|]. destruct s' as [|c s']; [discriminate|].
    apply numeral_from_chars in H. eapply Forall_impl; [|exact H]. auto.
Qed.

Lemma written_nonempty r s x : written r s x -> s <> [].
Proof. intros [H|(s' & -> & H)]; [|discriminate]. intros ->. discriminate. Qed.

Lemma written_not_in r s x c : digit c = None -> c <> "+"%char -> written r s x -> ~ In c s.
Proof.
  intros Hd Hp H I. apply written_chars in H. rewrite Forall_forall in H.
  destruct (H c I); congruence.
Qed.

(** ** Splitting and joining *)
Lemma separated_join c ts : join [c] ts = separated c ts.
Proof.
  induction ts as [|t ts IH]; [reflexivity|]. cbn [join separated]. destruct ts; [reflexivity|].
  now rewrite IH.
Qed.

Lemma split_on_nonempty c s : split_on c s <> [].
Proof.
  destruct s as [|x s]; cbn [split_on]; [discriminate|]. destruct (Ascii.eqb x c); [discriminate|].
  destruct (split_on c s); discriminate.
Qed.

Lemma split_separated c s : separated c (split_on c s) = s.
Proof.
  induction s as [|x s IH]; [reflexivity|]. cbn [split_on].
  pose proof (split_on_nonempty c s) as Hne.
  destruct (Ascii.eqb_spec x c) as [->|Hx].
  - cbn [separated]. destruct (split_on c s); [congruence|]. now rewrite IH.
  - destruct (split_on c s) as [|p ps]; [congruence|]. cbn [separated] in *.
    destruct ps; [now rewrite IH|]. cbn [List.app]. now rewrite <- IH.
Qed.

Lemma split_pieces c s : Forall (fun p : str => ~ In c p) (split_on c s).
Proof.
  induction s as [|x s IH]; cbn [split_on].
  - constructor; [intros []|constructor].
  - destruct (Ascii.eqb_spec x c) as [->|Hx].
    + constructor; [intros []|exact IH].
    + destruct (split_on c s) as [|p ps].
      * constructor; [|constructor]. intros [->|[]]. now apply Hx.
      * inversion IH; subst. constructor; [|assumption]. intros [->|I]; [now apply Hx|auto].
Qed.

Lemma split_app c p s : ~ In c p -> split_on c (p ++ c :: s) = p :: split_on c s.
Proof.
  induction p as [|x p IH]; intros H; cbn [split_on List.app].
  - now rewrite Ascii.eqb_refl.
  - destruct (Ascii.eqb_spec x c) as [->|Hx]; [exfalso; apply H; now left|].
    rewrite IH; [reflexivity|]. intros I. apply H. now right.
Qed.

Lemma split_none c p : ~ In c p -> split_on c p = [p].
Proof.
  induction p as [|x p IH]; intros H; cbn [split_on]; [reflexivity|].
  destruct (Ascii.eqb_spec x c) as [->|Hx]; [exfalso; apply H; now left|].
  rewrite IH; [reflexivity|]. intros I. apply H. now right.
Qed.

Lemma split_of_separated c ts : ts <> [] -> Forall (fun p : str => ~ In c p) ts ->
  split_on c (separated c ts) = ts.
Proof.
  induction ts as [|t ts IH]; intros Hne Hf; [congruence|]. inversion Hf; subst.
  cbn [separated]. destruct ts as [|t' ts]; [now apply split_none|].
  rewrite split_app by assumption. rewrite IH; [reflexivity|discriminate|assumption].
Qed.

Lemma separated_app c a b : a <> [] -> b <> [] ->
  separated c (a ++ b) = separated c a ++ c :: separated c b.
Proof.
  intros Ha Hb. induction a as [|x a IH]; [congruence|].
  destruct a as [|y a].
  - cbn [List.app separated]. destruct b; [congruence|reflexivity].
  - cbn [List.app] in *. cbn [separated] in *. rewrite IH by discriminate.
    rewrite <- app_assoc. reflexivity.
Qed.

Lemma separated_nil c ts : separated c ts = [] -> Forall (fun t : str => t <> []) ts -> ts = [].
Proof.
  destruct ts as [|t ts]; [reflexivity|]. intros E H. inversion H; subst. cbn [separated] in E.
  destruct ts; [congruence|]. destruct t; [congruence|discriminate].
Qed.
