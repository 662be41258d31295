(** * Weave: separating a bit list by a mask and putting it together again *)
From Verif Require Import RustBase BitManip Spec Bits.
From Coq Require Import ZifyBool ZifyNat ZifyN.
Ltac Zify.zify_post_hook ::= Z.div_mod_to_equations.

Fixpoint wv (m xs ys : list bool) : list bool :=
  match m with
  | [] => []
  | true :: m' => match xs with x :: xs' => x :: wv m' xs' ys | [] => [] end
  | false :: m' => match ys with y :: ys' => y :: wv m' xs ys' | [] => [] end
  end.

Section Select.
  Context {T : Type}.
  Implicit Types l : list T.
  Lemma select_true m (x : T) l : select (true :: m) (x :: l) = x :: select m l.
  Proof. reflexivity. Qed.
  Lemma select_false m (x : T) l : select (false :: m) (x :: l) = select m l.
  Proof. reflexivity. Qed.
  Lemma reject_true m (x : T) l : reject (true :: m) (x :: l) = reject m l.
  Proof. reflexivity. Qed.
  Lemma reject_false m (x : T) l : reject (false :: m) (x :: l) = x :: reject m l.
  Proof. reflexivity. Qed.

  Lemma select_length m l : List.length m = List.length l -> List.length (select m l) = ctrue m.
  Proof.
    revert l; induction m as [|[] m IH]; intros [|x l] E; try discriminate E; try reflexivity;
      injection E as E; rewrite ctrue_cons.
    - rewrite select_true. cbn [List.length]. rewrite IH; auto.
    - rewrite select_false. now rewrite IH.
  Qed.
  Lemma reject_length m l : List.length m = List.length l -> List.length (reject m l) = cfalse m.
  Proof.
    revert l; induction m as [|[] m IH]; intros [|x l] E; try discriminate E; try reflexivity;
      injection E as E; rewrite cfalse_cons.
    - rewrite reject_true. now rewrite IH.
    - rewrite reject_false. cbn [List.length]. rewrite IH; auto.
  Qed.

  Lemma select_contig p q l :
    List.length l = (p + q)%nat -> select (repeat true p ++ repeat false q) l = firstn p l.
  Proof.
    revert l; induction p as [|p IH]; intros l E; cbn [repeat app].
    - cbn [firstn]. revert l E. induction q; intros [|x l] E; try reflexivity.
      injection E as E. cbn [repeat]. rewrite select_false. now apply IHq.
    - destruct l as [|x l]; [discriminate|]. rewrite select_true. cbn [firstn]. f_equal.
      apply IH. cbn in E. lia.
  Qed.
  Lemma reject_contig p q l :
    List.length l = (p + q)%nat -> reject (repeat true p ++ repeat false q) l = skipn p l.
  Proof.
    revert l; induction p as [|p IH]; intros l E; cbn [repeat app].
    - cbn [skipn]. revert l E. induction q; intros [|x l] E; try discriminate E; try reflexivity.
      injection E as E. cbn [repeat]. rewrite reject_false. f_equal. now apply IHq.
    - destruct l as [|x l]; [discriminate|]. rewrite reject_true. cbn [skipn].
      apply IH. cbn in E. lia.
  Qed.

  Lemma select_nth_eq (d : T) m l l' :
    List.length m = List.length l -> List.length m = List.length l' ->
    (select m l = select m l' <->
     forall i, (i < List.length m)%nat -> nth i m false = true -> nth i l d = nth i l' d).
  Proof.
    revert l l'; induction m as [|b m IH]; intros [|x l] [|y l'] E E'; try discriminate.
    - split; [intros _ i Hi; cbn in Hi; lia | reflexivity].
    - injection E as E. injection E' as E'. specialize (IH l l' E E'). destruct b.
      + rewrite !select_true. split.
        * intros H [|i] Hi Hm; [now injection H as -> _|].
          cbn in Hi. apply IH; [now injection H| lia |assumption].
        * intros H. f_equal.
          -- apply (H 0%nat); [cbn; lia | reflexivity].
          -- apply IH. intros i Hi Hm. apply (H (S i)); [cbn; lia|assumption].
      + rewrite !select_false, IH. split.
        * intros H [|i] Hi Hm; [discriminate|]. cbn in Hi. apply H; [lia|assumption].
        * intros H i Hi Hm. apply (H (S i)); [cbn; lia|assumption].
  Qed.
  Lemma reject_nth_eq (d : T) m l l' :
    List.length m = List.length l -> List.length m = List.length l' ->
    (reject m l = reject m l' <->
     forall i, (i < List.length m)%nat -> nth i m false = false -> nth i l d = nth i l' d).
  Proof.
    revert l l'; induction m as [|b m IH]; intros [|x l] [|y l'] E E'; try discriminate.
    - split; [intros _ i Hi; cbn in Hi; lia | reflexivity].
    - injection E as E. injection E' as E'. specialize (IH l l' E E'). destruct b.
      + rewrite !reject_true, IH. split.
        * intros H [|i] Hi Hm; [discriminate|]. cbn in Hi. apply H; [lia|assumption].
        * intros H i Hi Hm. apply (H (S i)); [cbn; lia|assumption].
      + rewrite !reject_false. split.
        * intros H [|i] Hi Hm; [now injection H as -> _|].
          cbn in Hi. apply IH; [now injection H| lia |assumption].
        * intros H. f_equal.
          -- apply (H 0%nat); [cbn; lia | reflexivity].
          -- apply IH. intros i Hi Hm. apply (H (S i)); [cbn; lia|assumption].
  Qed.
End Select.

Lemma wv_length m xs ys :
  List.length xs = ctrue m -> List.length ys = cfalse m -> List.length (wv m xs ys) = List.length m.
Proof.
  revert xs ys; induction m as [|[] m IH]; intros xs ys; [reflexivity| |];
    rewrite ctrue_cons, cfalse_cons; intros Hx Hy.
  - destruct xs as [|x xs]; [discriminate|]. cbn in *. rewrite IH; lia.
  - destruct ys as [|y ys]; [discriminate|]. cbn in *. rewrite IH; lia.
Qed.

Lemma select_wv m xs ys :
  List.length xs = ctrue m -> List.length ys = cfalse m -> select m (wv m xs ys) = xs.
Proof.
  revert xs ys; induction m as [|[] m IH]; intros xs ys; [|rewrite ctrue_cons, cfalse_cons..];
    intros Hx Hy.
  - now destruct xs.
  - destruct xs as [|x xs]; [discriminate|]. cbn [wv]. rewrite select_true. f_equal. apply IH; cbn in *; lia.
  - destruct ys as [|y ys]; [discriminate|]. cbn [wv]. rewrite select_false. apply IH; cbn in *; lia.
Qed.

Lemma reject_wv m xs ys :
  List.length xs = ctrue m -> List.length ys = cfalse m -> reject m (wv m xs ys) = ys.
Proof.
  revert xs ys; induction m as [|[] m IH]; intros xs ys; [|rewrite ctrue_cons, cfalse_cons..];
    intros Hx Hy.
  - now destruct ys.
  - destruct xs as [|x xs]; [discriminate|]. cbn [wv]. rewrite reject_true. apply IH; cbn in *; lia.
  - destruct ys as [|y ys]; [discriminate|]. cbn [wv]. rewrite reject_false. f_equal. apply IH; cbn in *; lia.
Qed.

Lemma wv_select_reject (m l : list bool) : List.length m = List.length l -> wv m (select m l) (reject m l) = l.
Proof.
  revert l; induction m as [|[] m IH]; intros [|x l] E; try discriminate; try reflexivity; injection E as E.
  - rewrite select_true, reject_true. cbn [wv]. now rewrite IH.
  - rewrite select_false, reject_false. cbn [wv]. now rewrite IH.
Qed.

Lemma sr_inj (m l l' : list bool) :
  List.length m = List.length l -> List.length m = List.length l' ->
  select m l = select m l' -> reject m l = reject m l' -> l = l'.
Proof.
  intros E E' Hs Hr. rewrite <- (wv_select_reject m l E), <- (wv_select_reject m l' E').
  now rewrite Hs, Hr.
Qed.

Lemma wv_contig p q (l : list bool) :
  List.length l = (p + q)%nat ->
  wv (repeat true p ++ repeat false q) (firstn p l) (skipn p l) = l.
Proof.
  intros E. rewrite <- (wv_select_reject (repeat true p ++ repeat false q) l) at 3.
  - now rewrite select_contig, reject_contig.
  - rewrite app_length, !repeat_length. auto.
Qed.

(** The loops of unravel_address / weave_address. *)
Lemma partition_bits_spec a m nb hb :
  List.length a = List.length m ->
  partition_bits a m nb hb = (nb ++ select m a, hb ++ reject m a).
Proof.
  revert a nb hb; induction m as [|[] m IH]; intros [|x a] nb hb E; try discriminate.
  - cbn. now rewrite !app_nil_r.
  - injection E as E. cbn [partition_bits]. rewrite IH by assumption.
    rewrite select_true, reject_true, <- app_assoc. reflexivity.
  - injection E as E. cbn [partition_bits]. rewrite IH by assumption.
    rewrite select_false, reject_false, <- app_assoc. reflexivity.
Qed.

Lemma skipn_cons_nth {T} (l : list T) i x :
  nth_error l i = Some x -> skipn i l = x :: skipn (S i) l.
Proof.
  revert i; induction l as [|y l IH]; intros [|i] E; try discriminate.
  - injection E as ->. reflexivity.
  - cbn in E. cbn [skipn]. rewrite (IH i E). reflexivity.
Qed.

Lemma weave_loop_spec m nb hb i j :
  (List.length nb = i + ctrue m)%nat -> (List.length hb = j + cfalse m)%nat ->
  weave_loop m nb hb i j = Ret (wv m (skipn i nb) (skipn j hb)).
Proof.
  revert i j; induction m as [|[] m IH]; intros i j; [reflexivity| |];
    rewrite ctrue_cons, cfalse_cons; intros Hn Hh; cbn [weave_loop]; unfold index.
  - destruct (nth_error nb i) as [x|] eqn:E; [|apply nth_error_None in E; lia].
    cbn [unwrap bind]. rewrite IH by lia. cbn [bind].
    rewrite (skipn_cons_nth _ _ _ E). reflexivity.
  - destruct (nth_error hb j) as [x|] eqn:E; [|apply nth_error_None in E; lia].
    cbn [unwrap bind]. rewrite IH by lia. cbn [bind].
    rewrite (skipn_cons_nth _ _ _ E). reflexivity.
Qed.

(** Order: with equal network bits the host bits decide, and vice versa. *)
Lemma compare_add_l a b c : N.compare (a + b) (a + c) = N.compare b c.
Proof. destruct (N.compare_spec b c), (N.compare_spec (a + b) (a + c)); try reflexivity; lia. Qed.

Lemma compare_high b c x y w :
  x < 2 ^ w -> y < 2 ^ w ->
  N.compare (N.b2n b * 2 ^ w + x) (N.b2n c * 2 ^ w + y) =
  match b, c with true, false => Gt | false, true => Lt | _, _ => N.compare x y end.
Proof.
  intros. destruct b, c; cbn [N.b2n].
  - apply compare_add_l.
  - apply N.compare_gt_iff. lia.
  - apply N.compare_lt_iff. lia.
  - apply compare_add_l.
Qed.

Lemma wv_compare_host m xs ys ys' :
  List.length xs = ctrue m -> List.length ys = cfalse m -> List.length ys' = cfalse m ->
  N.compare (bval (wv m xs ys)) (bval (wv m xs ys')) = N.compare (bval ys) (bval ys').
Proof.
  revert xs ys ys'; induction m as [|[] m IH]; intros xs ys ys'; [|rewrite ctrue_cons, cfalse_cons..];
    intros Hx Hy Hy'.
  - destruct ys, ys'; try discriminate. reflexivity.
  - destruct xs as [|x xs]; [discriminate|]. cbn in Hx, Hy, Hy'. cbn [wv bval].
    rewrite !wv_length by (cbn in *; lia). rewrite compare_add_l. apply IH; lia.
  - destruct ys as [|y ys], ys' as [|y' ys']; try discriminate. cbn in Hx, Hy, Hy'. cbn [wv bval].
    rewrite !wv_length by (cbn in *; lia).
    replace (List.length ys') with (List.length ys) by lia.
    rewrite !compare_high.
    2-5: eapply N.lt_le_trans; [apply bval_lt|]; apply N.pow_le_mono_r; [lia|];
      rewrite ?wv_length by lia; lia.
    rewrite IH by lia. reflexivity.
Qed.

Lemma wv_compare_net m xs xs' ys :
  List.length xs = ctrue m -> List.length xs' = ctrue m -> List.length ys = cfalse m ->
  N.compare (bval (wv m xs ys)) (bval (wv m xs' ys)) = N.compare (bval xs) (bval xs').
Proof.
  revert xs xs' ys; induction m as [|[] m IH]; intros xs xs' ys; [|rewrite ctrue_cons, cfalse_cons..];
    intros Hx Hx' Hy.
  - destruct xs, xs'; try discriminate. reflexivity.
  - destruct xs as [|x xs], xs' as [|x' xs']; try discriminate. cbn in Hx, Hx', Hy. cbn [wv bval].
    rewrite !wv_length by (cbn in *; lia).
    replace (List.length xs') with (List.length xs) by lia.
    rewrite !compare_high.
    2-5: eapply N.lt_le_trans; [apply bval_lt|]; apply N.pow_le_mono_r; [lia|];
      rewrite ?wv_length by lia; lia.
    rewrite IH by lia. reflexivity.
  - destruct ys as [|y ys]; [discriminate|]. cbn in Hx, Hx', Hy. cbn [wv bval].
    rewrite !wv_length by (cbn in *; lia). rewrite compare_add_l. apply IH; lia.
Qed.

Lemma select_and m l : List.length m = List.length l -> select m (map2 andb l m) = select m l.
Proof.
  revert l; induction m as [|[] m IH]; intros [|x l] E; try discriminate; try reflexivity; injection E as E;
    cbn [map2].
  - rewrite !select_true, andb_true_r, IH; auto.
  - rewrite !select_false, IH; auto.
Qed.
Lemma reject_and m l :
  List.length m = List.length l -> reject m (map2 andb l m) = repeat false (cfalse m).
Proof.
  revert l; induction m as [|[] m IH]; intros [|x l] E; try discriminate; try reflexivity; injection E as E;
    cbn [map2]; rewrite cfalse_cons.
  - rewrite !reject_true, IH; auto.
  - rewrite !reject_false, IH, andb_false_r; auto.
Qed.

Lemma select_self m : select m m = repeat true (ctrue m).
Proof.
  induction m as [|[] m IH]; [reflexivity| |]; rewrite ctrue_cons.
  - rewrite select_true, IH. reflexivity.
  - rewrite select_false, IH. reflexivity.
Qed.
Lemma reject_self m : reject m m = repeat false (cfalse m).
Proof.
  induction m as [|[] m IH]; [reflexivity| |]; rewrite cfalse_cons.
  - rewrite reject_true, IH. reflexivity.
  - rewrite reject_false, IH. reflexivity.
Qed.
