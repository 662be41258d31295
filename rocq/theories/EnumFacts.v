(** * EnumFacts: the iterator over a network's addresses *)
From Verif Require Import RustBase Addr BitManip Cidr Net Enumerate Spec Bits Weave Bytes Laws NetFacts SetFacts Loops.
From Coq Require Import ZifyBool ZifyNat ZifyN.

Section Facts.
  Context `{R : Rust} {A : Type} `{I : IpAddress A} `{L : !Laws A}.
  Implicit Types (a b m : A) (n : network A) (l : list A).
  Notation mk n := (subnet_mask n).
  Notation bs n := (base_addr n).
  Notation WN := (N.of_nat W).

  (** The iterator after [i] items. *)
  Definition it_state n (i : N) (it : network_iter A) : Prop :=
    i <= size n /\ it_subnet_mask it = mk n /\
    okA (unraveled_addr it) /\ okA (last_unraveled_addr it) /\
    v (last_unraveled_addr it) = nv (mk n) (bs n) * size n + (size n - 1) /\
    (i < size n -> it_is_empty it = false /\ v (unraveled_addr it) = nv (mk n) (bs n) * size n + i) /\
    (i = size n -> it_is_empty it = true \/ v (unraveled_addr it) = nv (mk n) (bs n) * size n + size n).

  Lemma iter_new_spec n : okN n -> exists it, iter_new n = Ret it /\ it_state n 0 it.
  Proof.
    intros Hn. unfold iter_new.
    destruct (unravel_value (bs n) (mk n) (okN_base n Hn)) as (u & -> & Hu & _ & Vu). cbn [bind].
    destruct (last_addr_spec n Hn) as (la & -> & Hla & Mla & Hhla). cbn [bind].
    destruct (unravel_value la (mk n) Hla) as (ul & -> & Hul & _ & Vul). cbn [bind].
    eexists. split; [reflexivity|]. unfold it_state. cbn. pose proof (size_pos n).
    rewrite (okN_host n Hn) in Vu. fold (size n) in Vu, Vul, Hhla. rewrite Hhla in Vul.
    unfold mem in Mla. rewrite Mla in Vul. repeat split; try assumption; lia.
  Qed.

  Lemma iter_next_spec n i it :
    okN n -> it_state n i it ->
    if i <? size n
    then exists a it', iter_next it = Ret (Some a, it') /\ okA a /\ mem n a /\ hv (mk n) a = i /\
                       it_state n (i + 1) it'
    else iter_next it = Ret (None, it).
  Proof.
    intros Hn (Hi & Em & Hu & Hl & Vl & Hlt & Heq). unfold iter_next. pose proof (size_pos n) as Hpos.
    destruct (N.ltb_spec i (size n)) as [Hi'|Hi'].
    - destruct (Hlt Hi') as [-> Vu]. unfold agtb. rewrite altb_spec by assumption.
      rewrite (proj2 (N.ltb_ge _ _)) by lia. rewrite Em.
      destruct (weave_value (unraveled_addr it) (mk n) _ i Hu Vu Hi') as (w & -> & Hw & Nw & Hhw). cbn [bind].
      destruct (add_offset_1 (unraveled_addr it) Hu) as [(Hlt1 & c & -> & Hc & Vc)|(Hge & ->)]; cbn [bind];
        (eexists; eexists; split; [reflexivity|]); (split; [assumption|]); (split; [exact Nw|]);
        (split; [assumption|]); unfold it_state; cbn.
      + repeat split; try assumption; lia.
      + pose proof (pow_W (mk n)) as HW. fold (size n) in HW. pose proof (nv_lt (mk n) (bs n)) as Hnv.
        assert ((nv (mk n) (bs n) + 1) * size n <= 2 ^ WN) by (rewrite HW; apply N.mul_le_mono_r; lia).
        repeat split; try assumption; lia.
    - assert (i = size n) as -> by lia. destruct (Heq eq_refl) as [->|Vu]; [reflexivity|].
      destruct (it_is_empty it); [reflexivity|]. unfold agtb. rewrite altb_spec by assumption.
      rewrite (proj2 (N.ltb_lt _ _)) by lia. reflexivity.
  Qed.

  (** The first [List.length l] addresses in order. *)
  Definition listed n l : Prop :=
    forall j a, nth_error l j = Some a -> okA a /\ mem n a /\ hv (mk n) a = N.of_nat j.

  Lemma listed_snoc n l a :
    listed n l -> okA a -> mem n a -> hv (mk n) a = N.of_nat (List.length l) -> listed n (l ++ [a]).
  Proof.
    intros Hl Ha Hm Hh j b Hj. destruct (Nat.lt_ge_cases j (List.length l)) as [Hlt|Hge].
    - rewrite nth_error_app1 in Hj by assumption. now apply Hl.
    - rewrite nth_error_app2 in Hj by assumption. destruct (j - List.length l)%nat as [|k] eqn:E; cbn in Hj.
      + injection Hj as <-. repeat split; try assumption. rewrite Hh. f_equal. lia.
      + destruct k; discriminate.
  Qed.

  Lemma listed_cons_sorted n l : listed n l -> StronglySorted (fun a b => v a < v b) l.
  Proof.
    assert (G : forall l k, (forall j a, nth_error l j = Some a -> okA a /\ mem n a /\ hv (mk n) a = N.of_nat (k + j)) ->
                StronglySorted (fun a b => v a < v b) l).
    { clear l. induction l as [|a l IH]; intros k Hl; [constructor|]. constructor.
      - apply (IH (S k)). intros j b Hj. replace (S k + j)%nat with (k + S j)%nat by lia. now apply Hl.
      - apply Forall_forall. intros b Hb. apply In_nth_error in Hb. destruct Hb as [j Hj].
        destruct (Hl 0%nat a eq_refl) as (_ & Ma & Ha). destruct (Hl (S j) b Hj) as (_ & Mb & Hb).
        apply (host_lt (mk n)); [unfold mem in *; congruence|]. lia. }
    intros Hl. now apply (G l 0%nat).
  Qed.

  Lemma listed_full n l :
    listed n l -> N.of_nat (List.length l) = size n -> forall a, In a l <-> okA a /\ mem n a.
  Proof.
    intros Hl Hlen a. split.
    - intros Ha. apply In_nth_error in Ha. destruct Ha as [j Hj]. destruct (Hl j a Hj) as (? & ? & _). auto.
    - intros [Ha Hm]. pose proof (hv_lt (mk n) a) as Hlt. fold (size n) in Hlt.
      destruct (nth_error l (N.to_nat (hv (mk n) a))) as [b|] eqn:E.
      + destruct (Hl _ _ E) as (Hb & Mb & Hvb). rewrite N2Nat.id in Hvb.
        assert (b = a) as <-; [|now apply nth_error_In in E].
        apply (nv_hv_inj (mk n)); try assumption. unfold mem in *. congruence.
      + apply nth_error_None in E. lia.
  Qed.

  Lemma listed_at n l j a :
    listed n l -> (j < List.length l)%nat -> okA a -> mem n a -> hv (mk n) a = N.of_nat j ->
    nth_error l j = Some a.
  Proof.
    intros Hl Hj Ha Ma Hva. destruct (nth_error l j) as [b|] eqn:E.
    - destruct (Hl j b E) as (Hb & Mb & Hvb). f_equal.
      apply (nv_hv_inj (mk n)); try assumption; unfold mem in *; congruence.
    - apply nth_error_None in E. lia.
  Qed.

  Lemma enumerate_spec n :
    okN n -> exists l, enumerate_net n = Ret l /\ listed n l /\ N.of_nat (List.length l) = size n.
  Proof.
    intros Hn. unfold enumerate_net. destruct (iter_new_spec n Hn) as (it0 & -> & H0). cbn [bind].
    apply (while_total enumerate_step
      (fun st : network_iter A * list A => let '(it, acc) := st in
         it_state n (N.of_nat (List.length acc)) it /\ listed n (rev acc))
      (fun st => size n + 1 - N.of_nat (List.length (snd st)))).
    - intros [it acc] [Hit Hacc]. cbn [enumerate_step]. pose proof (iter_next_spec n _ it Hn Hit) as S.
      destruct (N.ltb_spec (N.of_nat (List.length acc)) (size n)) as [Hlt|Hge].
      + destruct S as (a & it' & -> & Ha & Hm & Hh & Hit'). cbn [bind snd List.length]. split; [split|].
        * replace (N.of_nat (S (List.length acc))) with (N.of_nat (List.length acc) + 1) by lia. assumption.
        * cbn [rev]. apply listed_snoc; try assumption. now rewrite rev_length.
        * lia.
      + rewrite S. cbn [bind]. split; [assumption|]. rewrite rev_length. destruct Hit as [Hle _]. lia.
    - split; [exact H0|]. intros j a Hj. destruct j; discriminate.
    - cbn. unfold size. pose proof (kt_hf (mk n)). pose proof law_nby.
      assert (2 ^ N.of_nat (hf (mk n)) <= 2 ^ 128) by (apply N.pow_le_mono_r; unfold W in *; lia).
      assert (2 ^ 128 + 1 < 2 ^ 300) by (vm_compute; reflexivity). lia.
  Qed.
End Facts.
