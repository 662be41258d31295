(** * Pf_Enum: proofs for P_Enum *)
From Verif Require Import RustBase Addr BitManip Cidr Net Enumerate Spec Bits Weave Bytes Laws NetFacts SetFacts Family Loops EnumFacts Observe Demo.
From Coq Require Import ZifyBool ZifyNat ZifyN.

Lemma StronglySorted_impl {X} (P Q : X -> X -> Prop) l :
  (forall x y, In x l -> In y l -> P x y -> Q x y) -> StronglySorted P l -> StronglySorted Q l.
Proof.
  intros H S. induction S as [|x l S IH Hf]; constructor.
  - apply IH. intros; apply H; auto using in_cons.
  - rewrite Forall_forall in *. intros y Hy. apply H; auto using in_eq, in_cons.
Qed.

Lemma c55_lists_exactly : forall (R : Rust) (F : family) (n : net F),
  wf_net n ->
  exists l, enumerate_net n = Ret l /\
    (forall a, In a l <-> valid a /\ member n a) /\
    StronglySorted (fun a b : addr F => value a < value b) l.
Proof.
  intros R F n Hn. pose proof Hn as Hn'. apply wf_okN in Hn'.
  destruct (enumerate_spec n Hn') as (l & E & Hl & Hlen). exists l. split; [assumption|].
  pose proof (listed_full n l Hl Hlen) as Hf. split.
  - intros a. rewrite Hf. rewrite <- valid_ok. split; intros [H1 H2]; (split; [assumption|]); now apply member_wf.
  - apply (StronglySorted_impl (fun a b => v a < v b)); [|now apply (listed_cons_sorted n)].
    intros x y Hx Hy. apply Hf in Hx, Hy. rewrite !value_v by (now apply valid_ok). auto.
Qed.

Lemma results_spec `{R : Rust} {F} (n : net F) l :
  okN n -> listed n l -> N.of_nat (List.length l) = size n ->
  forall k i it, (i <= List.length l)%nat -> it_state n (N.of_nat i) it ->
  results k it = Ret (firstn k (skipn i (map Some l)) ++ repeat None (k - (List.length l - i))).
Proof.
  intros Hn Hl Hlen. induction k as [|k IH]; intros i it Hi Hit; [reflexivity|].
  cbn [results]. pose proof (iter_next_spec n _ it Hn Hit) as S. rewrite <- Hlen in S.
  destruct (N.ltb_spec (N.of_nat i) (N.of_nat (List.length l))) as [Hlt|Hge].
  - destruct S as (a & it' & -> & Ha & Hm & Hh & Hit'). cbn [bind].
    replace (N.of_nat i + 1) with (N.of_nat (S i)) in Hit' by lia.
    rewrite (IH (S i) it') by (assumption || lia). cbn [bind].
    pose proof (listed_at n l i a Hl ltac:(lia) Ha Hm Hh) as E.
    apply nth_error_split in E. destruct E as (l1 & l2 & El & E1).
    replace (k - (List.length l - S i))%nat with (S k - (List.length l - i))%nat by lia.
    set (reps := repeat None (S k - (List.length l - i))). f_equal. clearbody reps. rewrite El, map_app. cbn [map].
    rewrite !skipn_app, map_length, E1, Nat.sub_diag. rewrite (skipn_all2 (n:=i)) by (rewrite map_length; lia).
    replace (S i - i)%nat with 1%nat by lia. rewrite (skipn_all2 (n:=S i)) by (rewrite map_length; lia).
    cbn [skipn app firstn]. reflexivity.
  - rewrite S. cbn [bind]. rewrite (IH i it) by assumption. cbn [bind].
    assert (i = List.length l) as -> by lia. rewrite !skipn_all2 by (rewrite map_length; lia).
    rewrite !firstn_nil. cbn [app]. rewrite Nat.sub_diag, !Nat.sub_0_r. reflexivity.
Qed.

Lemma c55_iterator : forall (R : Rust) (F : family) (n : net F),
  wf_net n ->
  exists l it, enumerate_net n = Ret l /\ iter_new n = Ret it /\
    forall k, results k it = Ret (firstn k (map Some l) ++ repeat None (k - List.length l)).
Proof.
  intros R F n Hn. apply wf_okN in Hn.
  destruct (enumerate_spec n Hn) as (l & E & Hl & Hlen). destruct (iter_new_spec n Hn) as (it & Ei & Hit).
  exists l, it. split; [assumption|]. split; [assumption|]. intros k.
  rewrite (results_spec n l Hn Hl Hlen k 0%nat it) by (assumption || lia).
  cbn [skipn]. now rewrite Nat.sub_0_r.
Qed.
