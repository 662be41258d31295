(** * Pf_Bits: proofs for P_Bits *)
From Verif Require Import RustBase Addr BitManip Cidr Net Spec Bits Weave Bytes Laws NetFacts SetFacts Family Demo.
From Coq Require Import ZifyBool ZifyNat ZifyN.
Ltac Zify.zify_post_hook ::= Z.div_mod_to_equations.

(** [contig] in numbers. *)
Lemma contig_value l p :
  contig l p <-> (p <= List.length l)%nat /\
    bval l = 2 ^ N.of_nat (List.length l) - 2 ^ (N.of_nat (List.length l) - N.of_nat p).
Proof.
  split.
  - intros Hc. pose proof Hc as Hr. apply contig_repeat in Hr. split; [apply Hr|].
    rewrite (contig_bval _ _ Hc). do 2 f_equal. lia.
  - intros [Hp E]. apply contig_repeat. split; [assumption|].
    apply bval_inj; [rewrite app_length, !repeat_length; lia|].
    rewrite E, bval_app, bval_repeat_true, bval_repeat_false, repeat_length.
    rewrite N.mul_sub_distr_r, <- N.pow_add_r, N.mul_1_l, N.add_0_r.
    f_equal; f_equal; lia.
Qed.

Lemma c12_mask_recognition : forall (bs : list N) (p : N),
  u8s bs ->
  let w := 8 * N.of_nat (List.length bs) in
  (prefix_from_subnet_mask_bytes bs = Some p <-> p <= w /\ be_value bs = 2 ^ w - 2 ^ (w - p)).
Proof.
  intros bs p Hb w. rewrite prefix_from_bytes_spec by assumption. rewrite contig_value.
  rewrite bytes_to_bits_length, bval_bytes by assumption.
  replace (N.of_nat (8 * List.length bs)) with w by (unfold w; lia).
  rewrite N2Nat.id. unfold w. split; intros [H1 H2]; (split; [lia|assumption]).
Qed.

Lemma c12_mixed_mask : forall (bs : list N),
  u8s bs ->
  let w := 8 * N.of_nat (List.length bs) in
  (prefix_from_subnet_mask_bytes bs = None <-> forall p, p <= w -> be_value bs <> 2 ^ w - 2 ^ (w - p)).
Proof.
  intros bs Hb w. split.
  - intros E p Hp Ev. assert (X : prefix_from_subnet_mask_bytes bs = Some p).
    { apply c12_mask_recognition; [assumption|]. split; assumption. }
    congruence.
  - intros Hn. destruct (prefix_from_subnet_mask_bytes bs) as [p|] eqn:E; [|reflexivity].
    apply c12_mask_recognition in E; [|assumption]. destruct E as [E1 E2]. now apply Hn in E2.
Qed.

Lemma c13_mask_construction : forall (p : N) (n : nat),
  let bs := subnet_mask_bytes_from_prefix p n in
  let w := 8 * N.of_nat n in
  List.length bs = n /\ u8s bs /\ be_value bs = 2 ^ w - 2 ^ (w - N.min p w).
Proof.
  intros p n bs w. split; [apply mask_bytes_length|]. split; [apply mask_bytes_u8|].
  unfold bs. rewrite <- bval_bytes by apply mask_bytes_u8.
  pose proof (mask_bytes_contig p n) as Hc. apply contig_value in Hc. destruct Hc as [_ ->].
  rewrite bytes_to_bits_length, mask_bytes_length. unfold w.
  replace (N.of_nat (8 * n)) with (8 * N.of_nat n) by lia. do 3 f_equal. lia.
Qed.

Lemma c13_recognise_constructed : forall (p : N) (n : nat),
  prefix_from_subnet_mask_bytes (subnet_mask_bytes_from_prefix p n) = Some (N.min p (8 * N.of_nat n)).
Proof.
  intros p n. apply prefix_from_bytes_spec; [apply mask_bytes_u8|].
  replace (N.to_nat (N.min p (8 * N.of_nat n))) with (Nat.min (N.to_nat p) (8 * n)) by lia.
  apply mask_bytes_contig.
Qed.

Lemma c13_construct_recognised : forall (bs : list N) (p : N),
  u8s bs -> prefix_from_subnet_mask_bytes bs = Some p ->
  subnet_mask_bytes_from_prefix p (List.length bs) = bs.
Proof.
  intros bs p Hb E. apply prefix_from_bytes_spec in E; [|assumption].
  apply bytes_to_bits_inj; [apply mask_bytes_u8|assumption|].
  apply contig_repeat in E. rewrite bytes_to_bits_length in E. destruct E as [Hp E].
  rewrite mask_bytes_bits, E, Nat.min_l by assumption. reflexivity.
Qed.

Lemma c14_bytes_to_bits : forall (bs : list N),
  u8s bs -> bytes_to_bits bs = nbits (8 * List.length bs) (be_value bs).
Proof.
  intros bs Hb. rewrite <- bval_bytes by assumption. symmetry. apply nbits_bval.
  apply bytes_to_bits_length.
Qed.

Lemma c14_bytes_bits_bytes : forall (bs : list N),
  u8s bs -> bits_to_bytes (bytes_to_bits bs) = bs.
Proof. exact bytes_bits_bytes. Qed.

Lemma c14_bits_bytes_bits : forall (l : list bool),
  exists k, (k < 8)%nat /\ ((List.length l + k) mod 8 = 0)%nat /\
    bytes_to_bits (bits_to_bytes l) = l ++ repeat false k /\ u8s (bits_to_bytes l).
Proof.
  intros l. exists ((8 - List.length l mod 8) mod 8)%nat.
  pose proof (Nat.mod_upper_bound (8 - List.length l mod 8) 8).
  split; [lia|]. split; [|split; [apply bits_bytes_bits|apply bits_to_bytes_u8]].
  pose proof (Nat.div_mod (List.length l) 8). pose proof (Nat.mod_upper_bound (List.length l) 8).
  destruct (Nat.eq_dec (List.length l mod 8) 0) as [E|E].
  - rewrite E. change ((8 - 0) mod 8)%nat with 0%nat. now rewrite Nat.add_0_r.
  - rewrite (Nat.mod_small (8 - _)) by lia.
    replace (List.length l + (8 - List.length l mod 8))%nat with ((List.length l / 8 + 1) * 8)%nat by lia.
    apply Nat.mod_mul. lia.
Qed.

Lemma c14_binary_string : forall (bs : list N),
  u8s bs ->
  bytes_to_binary bs =
  map (fun b : bool => if b then "1"%char else "0"%char) (nbits (8 * List.length bs) (be_value bs)).
Proof. intros bs Hb. unfold bytes_to_binary. now rewrite c14_bytes_to_bits. Qed.

Lemma c15_weave_unravel : forall (R : Rust) (F : family) (a m : addr F),
  valid a -> valid m ->
  exists u, unravel_address a m = Ret u /\ valid u /\ weave_address u m = Ret a.
Proof.
  intros R F a m Ha Hm. apply valid_ok in Ha.
  destruct (unravel_spec a m Ha) as (u & Eu & Hu & _).
  pose proof (weave_unravel a m Ha) as E. rewrite Eu in E. cbn [bind] in E.
  exists u. repeat split; try assumption. now apply valid_ok.
Qed.

Lemma c15_unravel_weave : forall (R : Rust) (F : family) (a m : addr F),
  valid a -> valid m ->
  exists w, weave_address a m = Ret w /\ valid w /\ unravel_address w m = Ret a.
Proof.
  intros R F a m Ha Hm. apply valid_ok in Ha.
  destruct (weave_spec a m Ha) as (u & Eu & Hu & _).
  pose proof (unravel_weave a m Ha) as E. rewrite Eu in E. cbn [bind] in E.
  exists u. repeat split; try assumption. now apply valid_ok.
Qed.

Lemma c16_unravel_gathers : forall (R : Rust) (F : family) (a m : addr F),
  valid a -> valid m ->
  exists u, unravel_address a m = Ret u /\ valid u /\
    abits u = select (abits m) (abits a) ++ reject (abits m) (abits a).
Proof.
  intros R F a m Ha Hm. pose proof Ha as Ha'. apply valid_ok in Ha'.
  destruct (unravel_spec a m Ha') as (u & Eu & Hu & E). apply valid_ok in Hu.
  exists u. split; [assumption|]. split; [assumption|]. rewrite !abits_bts by assumption. exact E.
Qed.

Lemma c16_unravel_cidr : forall (R : Rust) (F : family) (a m : addr F) (p : N),
  valid a -> valid m -> contiguous F (value m) p ->
  unravel_address a m = Ret a /\ weave_address a m = Ret a.
Proof.
  intros R F a m p Ha Hm Hc. apply contig_contiguous in Hc; [|assumption].
  apply contig_of_prefix in Hc. unfold unravel_address, weave_address. now rewrite Hc.
Qed.

Lemma c16_unravel_mask : forall (R : Rust) (F : family) (m : addr F),
  valid m ->
  exists u, unravel_address m m = Ret u /\ valid u /\
    value u = prefix_mask F (N.of_nat (ones (N.to_nat (width F)) (value m))).
Proof.
  intros R F m Hm. pose proof Hm as Hm'. apply valid_ok in Hm'.
  destruct (unravel_spec m m Hm') as (u & Eu & Hu & E). apply valid_ok in Hu.
  exists u. split; [assumption|]. split; [assumption|].
  unfold ones. fold (abits m). rewrite abits_bts by assumption.
  change (List.length (filter (fun b => b) (bts m))) with (kt m).
  assert (X : contiguous F (value u) (N.of_nat (kt m))); [|apply X].
  apply contig_contiguous; [assumption|]. rewrite Nat2N.id. apply contig_repeat.
  rewrite bts_length. pose proof (kt_hf m). split; [lia|].
  rewrite E. unfold nb, hb. rewrite select_self, reject_self.
  replace (W - kt m)%nat with (hf m) by lia. reflexivity.
Qed.
