(** * Family: from the generic facts to the vocabulary of Spec *)
From Verif Require Import RustBase Addr BitManip Cidr Net Spec Bits Weave Bytes Laws NetFacts SetFacts.
From Coq Require Import ZifyBool ZifyNat ZifyN.
Ltac Zify.zify_post_hook ::= Z.div_mod_to_equations.

#[global] Instance fam_laws `{Rust} (F : family) : Laws (addr F) :=
  match F as F return Laws (addr F) with
  | V4 => ipv4_laws
  | V6 => ipv6_laws
  end.

Section Fam.
  Context `{R : Rust} {F : family}.
  Implicit Types (a b m : addr F) (n : net F).

  Lemma valid_ok a : valid a <-> okA a.
  Proof. destruct F; reflexivity. Qed.

  Lemma width_W : width F = N.of_nat (@W (addr F) _ _).
  Proof. destruct F; reflexivity. Qed.

  Lemma width_nby : N.to_nat (width F) = (8 * @nby (addr F) _ _)%nat.
  Proof. destruct F; reflexivity. Qed.

  Lemma value_v a : valid a -> v a = value a.
  Proof.
    destruct F; cbn [valid value].
    - intros Ha. exact (v4_v_ok a Ha).
    - intros [Ht Hb]. exact (v6_v_ok a Ht Hb).
  Qed.

  Lemma value_lt a : valid a -> value a < 2 ^ width F.
  Proof. intros Ha. rewrite <- value_v, width_W by assumption. apply v_lt. Qed.

  Lemma value_inj a b : valid a -> valid b -> value a = value b -> a = b.
  Proof.
    intros Ha Hb E. rewrite <- !value_v in E by assumption.
    apply v_inj; now try apply valid_ok.
  Qed.

  Lemma value_surj x : x < 2 ^ width F -> exists a : addr F, valid a /\ value a = x.
  Proof.
    intros Hx. rewrite width_W in Hx. destruct (of_value x Hx) as (a & Ha & E).
    apply valid_ok in Ha. exists a. split; [assumption|]. now rewrite <- value_v.
  Qed.

  Lemma abits_bts a : valid a -> abits a = bts a.
  Proof.
    intros Ha. unfold abits. rewrite <- value_v, <- nbits_v, width_W, Nat2N.id by assumption. reflexivity.
  Qed.

  Lemma member_mem n a :
    valid (subnet_mask n) -> valid (base_addr n) -> valid a -> (member n a <-> mem n a).
  Proof.
    intros Hm Hb Ha. rewrite mem_testbit, !value_v, <- width_W by assumption. reflexivity.
  Qed.

  Lemma contig_contiguous m p : valid m -> (contig (bts m) (N.to_nat p) <-> contiguous F (value m) p).
  Proof.
    intros Hm. unfold contiguous, prefix_mask. rewrite <- value_v by assumption. rewrite width_W. split.
    - intros Hc. pose proof Hc as Hc'. apply contig_repeat in Hc'. rewrite bts_length in Hc'.
      split; [lia|]. unfold v. rewrite (contig_bval _ _ Hc), bts_length.
      do 2 f_equal. lia.
    - intros [Hp E]. apply contig_repeat. rewrite bts_length. split; [lia|].
      apply bval_inj; [rewrite app_length, !repeat_length, bts_length; lia|].
      fold (v m). rewrite E, bval_app, bval_repeat_true, bval_repeat_false, repeat_length.
      rewrite N.mul_sub_distr_r, <- N.pow_add_r, N.mul_1_l, N.add_0_r.
      f_equal; f_equal; lia.
  Qed.

  Lemma wf_okN n : wf_net n <-> okN n.
  Proof.
    split.
    - intros [Hb Hm Hh Hp]. constructor; [now apply valid_ok|now apply valid_ok| |].
      + apply hv0_testbit. rewrite !value_v by assumption. rewrite <- width_W. exact Hh.
      + destruct (prefix_from_subnet_mask_bytes (to_bytes (subnet_mask n))) as [p|] eqn:E.
        * apply Hp, contig_contiguous; [assumption|]. now apply contig_of_prefix.
        * destruct (cidr_prefix n) as [p|] eqn:E'; [|reflexivity].
          specialize (proj1 (Hp p) eq_refl). intros Hc. apply contig_contiguous in Hc; [|assumption].
          apply contig_of_prefix in Hc. congruence.
    - intros [Hb Hm Hh Hp]. apply valid_ok in Hb. apply valid_ok in Hm. constructor; try assumption.
      + rewrite hv0_testbit in Hh. rewrite !value_v in Hh by assumption. now rewrite width_W.
      + intros p. rewrite <- contig_contiguous by assumption. rewrite Hp. apply contig_of_prefix.
  Qed.

  Lemma is_cidr_cidr n p : is_cidr n p -> cidr n /\ contig (bts (subnet_mask n)) (N.to_nat p).
  Proof.
    intros [Hn Hp]. pose proof Hn as Hn'. apply wf_okN in Hn'.
    assert (Hc := okN_cidr n p Hn' Hp). split; [|assumption]. split; [assumption|]. eauto.
  Qed.

  Lemma cidr_is_cidr n : cidr n -> exists p, is_cidr n p.
  Proof.
    intros [Hn [p Hp]]. exists (N.of_nat p). split; [now apply wf_okN|].
    rewrite (okN_prefix n Hn). apply contig_of_prefix. now rewrite Nat2N.id.
  Qed.

  Lemma member_wf n a : wf_net n -> valid a -> (member n a <-> mem n a).
  Proof. intros [] Ha. now apply member_mem. Qed.

  Lemma size_cidr n p : is_cidr n p -> p <= width F /\ size n = 2 ^ (width F - p).
  Proof.
    intros Hn. destruct (is_cidr_cidr n p Hn) as [_ Hc].
    pose proof (contig_kt _ _ Hc) as [_ Hh]. apply contig_repeat in Hc. rewrite bts_length in Hc.
    rewrite width_W. split; [lia|]. unfold size. f_equal. lia.
  Qed.

  (** CIDR networks are intervals. *)
  Lemma member_interval n p a :
    is_cidr n p -> valid a ->
    (member n a <-> value (base_addr n) <= value a < value (base_addr n) + 2 ^ (width F - p)).
  Proof.
    intros Hn Ha. destruct (is_cidr_cidr n p Hn) as [Hc _].
    rewrite member_wf by (assumption || apply Hn).
    rewrite mem_interval by assumption. destruct (size_cidr n p Hn) as [_ ->].
    rewrite !value_v; [reflexivity|assumption|apply Hn].
  Qed.
End Fam.
