(** * Loops: reasoning about [while] *)
From Verif Require Import RustBase.
From Coq Require Import ZifyBool ZifyNat ZifyN.

Section Loop.
  Context {S T : Type} (step : S -> res (S + T)).

  (** A measured invariant: every step keeps it, decreasing the measure, or ends
      with a result that satisfies [Post], or panics in a state where [Pan]. *)
  Section Measure.
    Context (Inv : S -> Prop) (mu : S -> N) (Post : T -> Prop) (Pan : Prop).

    Definition step_ok : Prop :=
      forall s, Inv s ->
      match step s with
      | Ret (inl s') => Inv s' /\ mu s' < mu s
      | Ret (inr r) => Post r
      | Panic => Pan
      | Diverge => False
      end.

    Lemma loop_measure k : step_ok -> forall s, Inv s ->
      match loop step k s with
      | Ret (inl s') => Inv s' /\ mu s' + 2 ^ N.of_nat k <= mu s
      | Ret (inr r) => Post r
      | Panic => Pan
      | Diverge => False
      end.
    Proof.
      intros Hok. induction k as [|k IH]; intros s Hs; cbn [loop].
      - specialize (Hok s Hs). destruct (step s) as [[s'|r]| |]; cbn; try assumption.
        destruct Hok. split; [assumption|lia].
      - pose proof (IH s Hs) as H1. destruct (loop step k s) as [[s'|r]| |]; cbn [bind]; try assumption.
        destruct H1 as [Hs' H1]. pose proof (IH s' Hs') as H2.
        destruct (loop step k s') as [[s''|r]| |]; try assumption.
        destruct H2 as [Hs'' H2]. split; [assumption|].
        rewrite Nat2N.inj_succ, N.pow_succ_r'. lia.
    Qed.

    Lemma while_measure s :
      step_ok -> Inv s -> mu s < 2 ^ 300 ->
      match while step s with
      | Ret r => Post r
      | Panic => Pan
      | Diverge => False
      end.
    Proof.
      intros Hok Hs Hm. unfold while. pose proof (loop_measure fuel_doublings Hok s Hs) as H.
      destruct (loop step fuel_doublings s) as [[s'|r]| |]; cbn [bind]; try assumption.
      destruct H as [_ H]. change (N.of_nat fuel_doublings) with 300 in H. lia.
    Qed.
  End Measure.

  (** When no step panics. *)
  Lemma while_total (Inv : S -> Prop) (mu : S -> N) (Post : T -> Prop) s :
    step_ok Inv mu Post False -> Inv s -> mu s < 2 ^ 300 ->
    exists r, while step s = Ret r /\ Post r.
  Proof.
    intros Hok Hs Hm. pose proof (while_measure Inv mu Post False s Hok Hs Hm) as H.
    destruct (while step s) as [r| |]; try contradiction. eauto.
  Qed.

  (** When no step ends the loop normally: it panics. *)
  Lemma while_panics (Inv : S -> Prop) (mu : S -> N) s :
    step_ok Inv mu (fun _ => False) True -> Inv s -> mu s < 2 ^ 300 ->
    while step s = Panic.
  Proof.
    intros Hok Hs Hm. pose proof (while_measure Inv mu _ True s Hok Hs Hm) as H.
    destruct (while step s) as [r| |]; try contradiction. reflexivity.
  Qed.

  (** When every step continues: no number of steps suffices. *)
  Lemma loop_forever (Inv : S -> Prop) :
    (forall s, Inv s -> exists s', step s = Ret (inl s') /\ Inv s') ->
    forall k s, Inv s -> exists s', loop step k s = Ret (inl s') /\ Inv s'.
  Proof.
    intros Hok k. induction k as [|k IH]; intros s Hs; cbn [loop]; [auto|].
    destruct (IH s Hs) as (s' & -> & Hs'). cbn [bind]. now apply IH.
  Qed.

  Lemma while_forever (Inv : S -> Prop) s :
    (forall s, Inv s -> exists s', step s = Ret (inl s') /\ Inv s') ->
    Inv s -> while step s = Diverge.
  Proof.
    intros Hok Hs. unfold while.
    now destruct (loop_forever Inv Hok fuel_doublings s Hs) as (s' & -> & _).
  Qed.
End Loop.
