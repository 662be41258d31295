(** * Pf_Show: proofs for P_Show *)
From Verif Require Import RustBase Addr BitManip Net Parse Console ShowNet Spec SpecText SpecIO SpecShow Demo
  Bits Weave Bytes Laws NetFacts SetFacts Family TextFacts Pf_Addr Pf_Bits Pf_Net Pf_Split.
From Coq Require Import ZifyBool ZifyNat ZifyN.
Ltac Zify.zify_post_hook ::= idtac.

(** ** Programs that print marks *)
Definition marks {T : Terminal} (m : io unit) (ms : list mark) : Prop :=
  m = (map (paint colors_enabled) ms, Ret tt).

Section Marks.
  Context {T : Terminal}.

  Lemma marks_seq m k ms ms' : marks m ms -> marks k ms' -> marks (m ;;; k) (ms ++ ms').
  Proof. unfold marks. intros -> ->. unfold io_bind. cbn [fst snd]. now rewrite map_app. Qed.

  Lemma marks_ret : marks (io_ret tt) [].
  Proof. reflexivity. Qed.

  Lemma marks_println s : marks (println s) [Plain (s ++ newline)].
  Proof. reflexivity. Qed.

  Lemma pad_zero s : pad s 0 = s.
  Proof. reflexivity. Qed.

  Lemma pad_fill s (k : nat) : pad s (Z.of_nat k) = fill k s.
  Proof.
    unfold pad, fill. destruct (Z.ltb_spec 0 (Z.of_nat k)) as [L|L].
    - destruct (Z.ltb_spec (Z.of_nat (List.length s)) (Z.of_nat k)) as [K|K].
      + do 2 f_equal. lia.
      + replace (k - List.length s)%nat with 0%nat by lia. cbn [repeat]. now rewrite app_nil_r.
    - replace k with 0%nat by lia. cbn. now rewrite app_nil_r.
  Qed.

  Lemma marks_write s c (k : nat) : marks (write_in_color s (Some c) (Z.of_nat k)) [Frag c (fill k s)].
  Proof.
    unfold write_in_color, marks. rewrite pad_fill. cbn [map paint]. destruct colors_enabled; reflexivity.
  Qed.

  Lemma marks_write0 s c : marks (write_in_color s (Some c) 0) [Frag c s].
  Proof. unfold write_in_color, marks. rewrite pad_zero. cbn [map paint]. destruct colors_enabled; reflexivity. Qed.

  Lemma marks_for {X : Type} (l : list X) body f : (forall x, In x l -> marks (body x) (f x)) ->
    marks (io_for l body) (flat_map f l).
  Proof.
    induction l as [|x l IH]; intros H; cbn [io_for flat_map]; [apply marks_ret|].
    apply marks_seq; [apply H; now left|]. apply IH. intros y Hy. apply H. now right.
  Qed.

  Lemma marks_eq m ms ms' : marks m ms -> ms = ms' -> marks m ms'.
  Proof. now intros H <-. Qed.
End Marks.

(** ** Bits of bytes *)
Lemma to_binary b : bytes_to_binary [b] = map bit_char (byte_bits b).
Proof. unfold bytes_to_binary, bytes_to_bits. cbn [flat_map]. now rewrite app_nil_r. Qed.

Lemma byte_bits_len b : List.length (byte_bits b) = 8%nat.
Proof. reflexivity. Qed.

Lemma is_char1 l i : is_char "1" (map bit_char l) i = nth i l false.
Proof.
  unfold is_char. rewrite nth_error_map. destruct (nth_error l i) as [b|] eqn:E; cbn [option_map].
  - erewrite nth_error_nth by exact E. now destruct b.
  - apply nth_error_None in E. now rewrite nth_overflow.
Qed.
Lemma is_char0 l i : (i < List.length l)%nat -> is_char "0" (map bit_char l) i = negb (nth i l false).
Proof.
  intros Hi. unfold is_char. rewrite nth_error_map. destruct (nth_error l i) as [b|] eqn:E; cbn [option_map].
  - erewrite nth_error_nth by exact E. now destruct b.
  - apply nth_error_None in E. lia.
Qed.
Lemma starts_bits l k : (List.length k <= List.length l)%nat ->
  starts_with (map bit_char k) (map bit_char l) = forallb (fun p => Bool.eqb (fst p) (snd p)) (combine k l).
Proof.
  revert l. induction k as [|x k IH]; intros l Hl; cbn [map starts_with combine forallb]; [now destruct (map bit_char l)|].
  destruct l as [|y l]; cbn [List.length] in Hl; [lia|]. cbn [map starts_with combine forallb fst snd].
  rewrite IH by lia. now destruct x, y.
Qed.

Section Columns.
  Context {T : Terminal}.

  (** The marks of the bytes of an address, one function for the bits and one for
      the separators. *)
  Fixpoint byte_marks (i : nat) (bytes : list N) (f : nat -> N -> list mark) (sep : nat -> list mark) : list mark :=
    match bytes with
    | [] => []
    | b :: bytes' => f i b ++ sep i ++ byte_marks (S i) bytes' f sep
    end.

  Lemma bits_for (b : N) (c : nat -> color) :
    marks (io_for (seq 0 8) (fun bit =>
             ch <-- io_lift (index (bytes_to_binary [b]) bit) ;; write_in_color [ch] (Some (c bit)) 0))
          (map (fun bit => Frag (c bit) [bit_char (nth bit (byte_bits b) false)]) (seq 0 8)).
  Proof.
    replace (map _ (seq 0 8)) with (flat_map (fun bit => [Frag (c bit) [bit_char (nth bit (byte_bits b) false)]]) (seq 0 8)) by reflexivity.
    apply marks_for. intros i Hi. rewrite to_binary.
    assert (index (map bit_char (byte_bits b)) i = Ret (bit_char (nth i (byte_bits b) false))) as ->.
    { unfold index. rewrite nth_error_map. apply in_seq in Hi.
      destruct (nth_error (byte_bits b) i) as [x|] eqn:E.
      - cbn [option_map unwrap]. now erewrite nth_error_nth by exact E.
      - apply nth_error_None in E. rewrite byte_bits_len in E. lia. }
    rewrite io_lift_ret. apply marks_write0.
  Qed.

  Definition sep4 (len i : nat) : list mark := if Nat.ltb i (len - 1) then [Frag White (lit ".")] else [].
  Definition sep6 (len i : nat) : list mark := if Nat.ltb i (len - 1) && Nat.eqb (i mod 2) 1 then [Frag White (lit ":")] else [].

  (** Whole bytes. *)
  Definition whole (c : color) (i : nat) (b : N) : list mark := [Frag c (map bit_char (byte_bits b))].
  Lemma v4_whole bytes : forall i len m cc oc,
    (oc <> None \/ m = None) -> (forall mb, m = Some mb -> List.length mb = len) -> (i + List.length bytes <= len)%nat ->
    marks (output_binary_ipv4_loop i len bytes m cc oc)
      (byte_marks i bytes (whole (match oc with Some c => c | None => Yellow end)) (sep4 len)).
  Proof.
    induction bytes as [|b bytes IH]; intros i len m cc oc Ho Hm Hl; cbn [output_binary_ipv4_loop byte_marks]; [apply marks_ret|].
    cbn [List.length] in Hl.
    assert (exists x, match m with None => Ret None | Some mb => x <- index mb i ;; Ret (Some x) end = Ret x /\ (m = None -> x = None)) as (x & -> & Hx).
    { destruct m as [mb|]; [|eauto]. specialize (Hm mb eq_refl). unfold index.
      destruct (nth_error mb i) as [y|] eqn:E; [cbn [unwrap bind]; eexists; split; [reflexivity|discriminate]|].
      apply nth_error_None in E. lia. }
    rewrite io_lift_ret. cbv zeta.
    set (body := match oc with Some _ => _ | None => _ end).
    assert (exists e, body = (map (paint colors_enabled) (whole (match oc with Some c => c | None => Yellow end) i b), Ret e)) as (cc' & ->).
    { unfold body, whole. rewrite to_binary. destruct oc as [c|].
      - rewrite (marks_write0 (map bit_char (byte_bits b)) c). eexists. reflexivity.
      - destruct Ho as [Ho|Ho]; [congruence|]. rewrite (Hx Ho). cbn [option_map].
        rewrite (marks_write0 (map bit_char (byte_bits b)) HOST_BITS_COLOR). eexists. reflexivity. }
    rewrite io_bind_pair.
    assert (forall ev (k : io unit) ms', marks k ms' -> marks (map (paint colors_enabled) ev ++ fst k, snd k) (ev ++ ms')) as K.
    { intros ev k ms' ->. unfold marks. cbn [fst snd]. now rewrite map_app. }
    apply K. apply marks_seq.
    - unfold sep4. destruct (Nat.ltb i (len - 1)); [apply marks_write0|apply marks_ret].
    - apply IH; try assumption. lia.
  Qed.

  Definition bitwise (c : nat -> nat -> color) (i : nat) (b : N) : list mark :=
    map (fun bit => Frag (c i bit) [bit_char (nth bit (byte_bits b) false)]) (seq 0 8).
  (** The colour of a bit of a byte by the mask alone. *)
  Definition by_mask (mb : list N) (i bit : nat) : color :=
    if nth bit (byte_bits (nth i mb 0)) false then Green else Yellow.
  Definition by_class (cc : bool) (b : N) (mb : list N) (i bit : nat) : color :=
    v4_bit_color i (if Nat.eqb i 0 then v4_color_class cc (bytes_to_binary [b]) (bytes_to_binary [nth i mb 0]) else cc)
      (bytes_to_binary [b]) (bytes_to_binary [nth i mb 0]) bit.

  Lemma index_some {X} (l : list X) i d : (i < List.length l)%nat -> index l i = Ret (nth i l d).
  Proof.
    intros H. unfold index. destruct (nth_error l i) as [y|] eqn:E; [|apply nth_error_None in E; lia].
    cbn [unwrap]. now erewrite nth_error_nth by exact E.
  Qed.

  Lemma v4_masked_rest bytes : forall i len mb cc,
    List.length mb = len -> (1 <= i)%nat -> (i + List.length bytes <= len)%nat ->
    marks (output_binary_ipv4_loop i len bytes (Some mb) cc None)
      (byte_marks i bytes (bitwise (by_mask mb)) (sep4 len)).
  Proof.
    induction bytes as [|b bytes IH]; intros i len mb cc Hm Hi Hl; cbn [output_binary_ipv4_loop byte_marks]; [apply marks_ret|].
    cbn [List.length] in Hl.
    rewrite (index_some mb i 0) by lia. cbn [bind]. rewrite io_lift_ret. cbv zeta. cbn [option_map].
    replace (Nat.eqb i 0) with false by (symmetry; apply Nat.eqb_neq; lia).
    rewrite (bits_for b (fun bit => v4_bit_color i cc (bytes_to_binary [b]) (bytes_to_binary [nth i mb 0]) bit)).
    rewrite io_bind_pair.
    assert (forall ev (k : io unit) ms', marks k ms' -> marks (map (paint colors_enabled) ev ++ fst k, snd k) (ev ++ ms')) as K.
    { intros ev k ms' ->. unfold marks. cbn [fst snd]. now rewrite map_app. }
    cbn [io_ret fst snd]. rewrite app_nil_r. unfold io_ret at 1. cbn [fst]. rewrite io_bind_pair.
    eapply marks_eq; [apply K; apply marks_seq; [|apply IH; try assumption; lia]|].
    - instantiate (1 := sep4 len i). unfold sep4. destruct (Nat.ltb i (len - 1)); [apply marks_write0|apply marks_ret].
    - f_equal. unfold bitwise. apply map_ext_in. intros bit Hb. f_equal. unfold v4_bit_color, by_mask.
      replace (Nat.eqb i 0) with false by (symmetry; apply Nat.eqb_neq; lia). cbn [andb].
      now rewrite to_binary, is_char1.
  Qed.

  Lemma v4_masked b bytes len mb cc :
    List.length mb = len -> List.length (b :: bytes) = len ->
    marks (output_binary_ipv4_loop 0 len (b :: bytes) (Some mb) cc None)
      (bitwise (by_class cc b mb) 0 b ++ sep4 len 0 ++ byte_marks 1 bytes (bitwise (by_mask mb)) (sep4 len)).
  Proof.
    intros Hm Hl. cbn [output_binary_ipv4_loop]. cbn [List.length] in Hl.
    rewrite (index_some mb 0 0) by lia. cbn [bind]. rewrite io_lift_ret. cbv zeta. cbn [option_map Nat.eqb].
    rewrite (bits_for b (fun bit => v4_bit_color 0 _ (bytes_to_binary [b]) (bytes_to_binary [nth 0 mb 0]) bit)).
    rewrite io_bind_pair.
    assert (forall ev (k : io unit) ms', marks k ms' -> marks (map (paint colors_enabled) ev ++ fst k, snd k) (ev ++ ms')) as K.
    { intros ev k ms' ->. unfold marks. cbn [fst snd]. now rewrite map_app. }
    cbn [io_ret fst snd]. rewrite app_nil_r. unfold io_ret at 1. cbn [fst]. rewrite io_bind_pair.
    apply K. apply marks_seq.
    - unfold sep4. destruct (Nat.ltb 0 (len - 1)); [apply marks_write0|apply marks_ret].
    - apply v4_masked_rest; lia.
  Qed.

  Lemma v6_whole bytes : forall i len m oc,
    (oc <> None \/ m = None) -> (forall mb, m = Some mb -> List.length mb = len) -> (i + List.length bytes <= len)%nat ->
    marks (output_binary_ipv6_loop i len bytes m oc)
      (byte_marks i bytes (whole (match oc with Some c => c | None => Yellow end)) (sep6 len)).
  Proof.
    induction bytes as [|b bytes IH]; intros i len m oc Ho Hm Hl; cbn [output_binary_ipv6_loop byte_marks]; [apply marks_ret|].
    cbn [List.length] in Hl.
    assert (exists x, match m with None => Ret None | Some mb => x <- index mb i ;; Ret (Some x) end = Ret x /\ (m = None -> x = None)) as (x & -> & Hx).
    { destruct m as [mb|]; [|eauto]. specialize (Hm mb eq_refl). rewrite (index_some mb i 0) by lia.
      eexists; split; [reflexivity|discriminate]. }
    rewrite io_lift_ret. cbv zeta. apply marks_seq; [|apply marks_seq].
    - unfold whole. rewrite to_binary. destruct oc as [c|]; [apply marks_write0|].
      destruct Ho as [Ho|Ho]; [congruence|]. rewrite (Hx Ho). cbn [option_map]. apply marks_write0.
    - unfold sep6. destruct (Nat.ltb i (len - 1) && Nat.eqb (i mod 2) 1); [apply marks_write0|apply marks_ret].
    - apply IH; try assumption. lia.
  Qed.

  Lemma v6_masked bytes : forall i len mb,
    List.length mb = len -> (i + List.length bytes <= len)%nat ->
    marks (output_binary_ipv6_loop i len bytes (Some mb) None)
      (byte_marks i bytes (bitwise (by_mask mb)) (sep6 len)).
  Proof.
    induction bytes as [|b bytes IH]; intros i len mb Hm Hl; cbn [output_binary_ipv6_loop byte_marks]; [apply marks_ret|].
    cbn [List.length] in Hl.
    rewrite (index_some mb i 0) by lia. cbn [bind]. rewrite io_lift_ret. cbv zeta. cbn [option_map].
    apply marks_seq; [|apply marks_seq].
    - eapply marks_eq; [apply (bits_for b (fun bit => if is_char "1" (bytes_to_binary [nth i mb 0]) bit then NET_BITS_COLOR else HOST_BITS_COLOR))|].
      unfold bitwise. apply map_ext_in. intros bit Hb. f_equal. unfold by_mask. now rewrite to_binary, is_char1.
    - unfold sep6. destruct (Nat.ltb i (len - 1) && Nat.eqb (i mod 2) 1); [apply marks_write0|apply marks_ret].
    - apply IH; try assumption. lia.
  Qed.
End Columns.

(** ** Columns *)
Lemma list4 {X} (l : list X) : List.length l = 4%nat -> exists a b c d, l = [a; b; c; d].
Proof.
  intros H. do 4 (destruct l as [|? l]; [discriminate H|]). destruct l; [|discriminate H].
  repeat eexists.
Qed.
Lemma list16 {X} (l : list X) : List.length l = 16%nat ->
  exists a b c d e f g h i j k m n o p q, l = [a; b; c; d; e; f; g; h; i; j; k; m; n; o; p; q].
Proof.
  intros H. do 16 (destruct l as [|? l]; [discriminate H|]). destruct l; [|discriminate H].
  repeat eexists.
Qed.

(** [column] on the list of bits. *)
Definition bits_column (F : family) (k : nat) (bs : list bool) (colour : nat -> color) : list mark :=
  let w := N.to_nat (width F) in
  flat_map (fun i =>
      Frag (colour (i * k)%nat) (map bit_char (firstn k (skipn (i * k) bs))) ::
      (if Nat.eqb ((S i * k) mod group_size F) 0 && Nat.ltb (S i * k) w
       then [Frag White [group_sep F]] else []))
    (seq 0 (w / k)).
Lemma column_bits (F : family) k (a : addr F) c : column k a c = bits_column F k (abits a) c.
Proof. reflexivity. Qed.
Lemma bits_column_ext (F : family) k bs c c' : (forall j, c j = c' j) -> bits_column F k bs c = bits_column F k bs c'.
Proof.
  intros H. unfold bits_column. rewrite !flat_map_concat_map. f_equal. apply map_ext. intros i. now rewrite H.
Qed.
Lemma column_ext (F : family) k (a : addr F) c c' : (1 <= k)%nat -> (forall j, (j < N.to_nat (width F))%nat -> c j = c' j) -> column k a c = column k a c'.
Proof.
  intros Hk H. unfold column. rewrite !flat_map_concat_map. f_equal. apply map_ext_in. intros i Hi.
  apply in_seq in Hi. do 2 f_equal. apply H.
  assert (N.to_nat (width F) / k * k <= N.to_nat (width F))%nat by (rewrite Nat.mul_comm; apply Nat.mul_div_le; lia). nia.
Qed.

Lemma whole4 bs c : List.length bs = 4%nat ->
  byte_marks 0 bs (whole c) (sep4 4) = bits_column V4 8 (bytes_to_bits bs) (fun _ => c).
Proof. intros H. destruct (list4 bs H) as (x0 & x1 & x2 & x3 & ->). reflexivity. Qed.
Lemma whole6 bs c : List.length bs = 16%nat ->
  byte_marks 0 bs (whole c) (sep6 16) = bits_column V6 8 (bytes_to_bits bs) (fun _ => c).
Proof.
  intros H. destruct (list16 bs H) as (x0 & x1 & x2 & x3 & x4 & x5 & x6 & x7 & x8 & x9 & x10 & x11 & x12 & x13 & x14 & x15 & ->).
  vm_compute. reflexivity.
Qed.
Lemma masked6 bs mb : List.length bs = 16%nat -> List.length mb = 16%nat ->
  byte_marks 0 bs (bitwise (by_mask mb)) (sep6 16) =
  bits_column V6 1 (bytes_to_bits bs) (fun j => if nth j (bytes_to_bits mb) false then Green else Yellow).
Proof.
  intros H K. destruct (list16 bs H) as (x0 & x1 & x2 & x3 & x4 & x5 & x6 & x7 & x8 & x9 & x10 & x11 & x12 & x13 & x14 & x15 & ->).
  destruct (list16 mb K) as (y0 & y1 & y2 & y3 & y4 & y5 & y6 & y7 & y8 & y9 & y10 & y11 & y12 & y13 & y14 & y15 & ->).
  vm_compute. reflexivity.
Qed.

(** ** Classes *)
Definition shown_bits (ab mb : list bool) : bool :=
  nth 0 mb false && implb (nth 0 ab false) (nth 1 mb false) && implb (nth 1 ab false) (nth 2 mb false) &&
  implb (nth 2 ab false) (nth 3 mb false).
Definition tell_bits (ab : list bool) : nat :=
  if nth 0 ab false then if nth 1 ab false then if nth 2 ab false then 4 else 3 else 2 else 1.
Definition class_colour (cc : bool) (ab mb : list bool) (j : nat) : color :=
  if cc && (shown_bits ab mb && Nat.ltb j (tell_bits ab)) then Magenta
  else if nth j mb false then Green else Yellow.

Lemma class_byte (l m : list bool) cc bit : List.length l = 8%nat -> List.length m = 8%nat -> (bit < 8)%nat ->
  v4_bit_color 0 (v4_color_class cc (map bit_char l) (map bit_char m)) (map bit_char l) (map bit_char m) bit =
  class_colour cc l m bit.
Proof.
  intros Hl Hm Hb.
  destruct l as [|x0 [|x1 [|x2 [|x3 [|x4 [|x5 [|x6 [|x7 [|]]]]]]]]]; try discriminate Hl.
  destruct m as [|y0 [|y1 [|y2 [|y3 [|y4 [|y5 [|y6 [|y7 [|]]]]]]]]]; try discriminate Hm.
  unfold v4_bit_color. rewrite !is_char1.
  do 8 (destruct bit as [|bit]; [destruct cc; [|reflexivity]; destruct x0, x1, x2, y0, y1, y2, y3; reflexivity|]).
  exfalso. lia.
Qed.

Lemma masked4 b bs mb cc : List.length (b :: bs) = 4%nat -> List.length mb = 4%nat ->
  bitwise (by_class cc b mb) 0 b ++ sep4 4 0 ++ byte_marks 1 bs (bitwise (by_mask mb)) (sep4 4) =
  bits_column V4 1 (bytes_to_bits (b :: bs)) (class_colour cc (bytes_to_bits (b :: bs)) (bytes_to_bits mb)).
Proof.
  intros H K. destruct (list4 (b :: bs) H) as (x0 & x1 & x2 & x3 & [= -> ->]).
  destruct (list4 mb K) as (y0 & y1 & y2 & y3 & ->).
  assert (bitwise (by_class cc x0 [y0; y1; y2; y3]) 0 x0 = bitwise (fun _ => class_colour cc (byte_bits x0) (byte_bits y0)) 0 x0) as ->.
  { apply map_ext_in. intros bit Hb. apply in_seq in Hb. f_equal. unfold by_class. cbn [nth Nat.eqb].
    rewrite !to_binary. apply class_byte; [reflexivity|reflexivity|lia]. }
  assert (bits_column V4 1 (bytes_to_bits [x0; x1; x2; x3])
            (class_colour cc (bytes_to_bits [x0; x1; x2; x3]) (bytes_to_bits [y0; y1; y2; y3])) =
          bits_column V4 1 (bytes_to_bits [x0; x1; x2; x3])
            (fun j => if Nat.ltb j 8 then class_colour cc (byte_bits x0) (byte_bits y0) j
                      else if nth j (bytes_to_bits [y0; y1; y2; y3]) false then Green else Yellow)) as ->.
  { unfold bits_column. rewrite !flat_map_concat_map. f_equal. apply map_ext_in. intros i _. do 2 f_equal.
    rewrite Nat.mul_1_r. destruct (Nat.ltb_spec i 8) as [L|L].
    - do 8 (destruct i as [|i]; [reflexivity|]). exfalso. lia.
    - unfold class_colour.
      replace (Nat.ltb i (tell_bits _)) with false; [now rewrite !andb_false_r|].
      symmetry. apply Nat.ltb_ge. unfold tell_bits.
      repeat match goal with |- context [if ?b then _ else _] => destruct b end; lia. }
  vm_compute. reflexivity.
Qed.

Lemma top_bits (a : addr V4) : valid a ->
  (nth 0 (abits a) false = false <-> value a < 128 * 2 ^ 24) /\
  (nth 0 (abits a) false = true -> (nth 1 (abits a) false = false <-> value a < 192 * 2 ^ 24)) /\
  (nth 0 (abits a) false = true -> nth 1 (abits a) false = true -> (nth 2 (abits a) false = false <-> value a < 224 * 2 ^ 24)) /\
  (nth 0 (abits a) false = true -> nth 1 (abits a) false = true -> nth 2 (abits a) false = true ->
   (nth 3 (abits a) false = false <-> value a < 240 * 2 ^ 24)).
Proof.
  intros Ha. pose proof (@value_lt debug_env V4 a Ha) as Hv. change (2 ^ width V4) with (2 ^ 28 * 16) in Hv.
  unfold abits. change (N.to_nat (width V4)) with 32%nat. generalize dependent (value a). clear. intros v Hv.
  pose (q := v / 2 ^ 28).
  assert (q < 16) as Hq by (apply N.div_lt_upper_bound; [discriminate|exact Hv]).
  assert (forall i, (i < 4)%nat -> nth i (nbits 32 v) false = N.testbit q (N.of_nat (3 - i))) as B.
  { intros i Hi. unfold q. rewrite N.div_pow2_bits.
    do 4 (destruct i as [|i]; [reflexivity|]). lia. }
  rewrite !B by lia.
  assert (forall k, v < k * 2 ^ 28 <-> q < k) as E.
  { intros k. unfold q. rewrite (N.mul_comm k). split; intros H.
    - apply N.div_lt_upper_bound; [discriminate|assumption].
    - pose proof (N.div_mod v (2 ^ 28)). pose proof (N.mod_lt v (2 ^ 28)).
      assert (2 ^ 28 <> 0) by discriminate. nia. }
  change (128 * 2 ^ 24) with (8 * 2 ^ 28). change (192 * 2 ^ 24) with (12 * 2 ^ 28).
  change (224 * 2 ^ 24) with (14 * 2 ^ 28). change (240 * 2 ^ 24) with (15 * 2 ^ 28).
  rewrite !E. clearbody q. clear - Hq.
  assert (In q [0;1;2;3;4;5;6;7;8;9;10;11;12;13;14;15]) as H by (cbn [In]; lia).
  cbn [In] in H. repeat (destruct H as [<-|H]); [..|contradiction]; cbn; repeat split; intros; try discriminate; lia.
Qed.

Lemma tell_bits_spec (a : addr V4) : valid a -> tell_bits (abits a) = class_bits a.
Proof.
  intros Ha. destruct (top_bits a Ha) as (A & B & C & _). unfold tell_bits, class_bits.
  destruct (nth 0 (abits a) false); [|now rewrite (proj2 (N.ltb_lt _ _) (proj1 A eq_refl))].
  destruct (N.ltb_spec (value a) (128 * 2 ^ 24)) as [L|L]; [now apply A in L|].
  specialize (B eq_refl). specialize (C eq_refl).
  destruct (nth 1 (abits a) false); [|now rewrite (proj2 (N.ltb_lt _ _) (proj1 B eq_refl))].
  destruct (N.ltb_spec (value a) (192 * 2 ^ 24)) as [L'|L']; [now apply B in L'|].
  specialize (C eq_refl).
  destruct (nth 2 (abits a) false); [|now rewrite (proj2 (N.ltb_lt _ _) (proj1 C eq_refl))].
  destruct (N.ltb_spec (value a) (224 * 2 ^ 24)) as [L2|L2]; [now apply C in L2|]. reflexivity.
Qed.

Lemma class_colour_spec (a m : addr V4) cc j : valid a -> class_colour cc (abits a) (abits m) j = bit_colour a m cc j.
Proof.
  intros Ha. unfold class_colour, bit_colour. cbn [class_bit]. unfold class_shown. now rewrite tell_bits_spec.
Qed.

Definition label_bits (ab : list bool) : str :=
  if nth 0 ab false then
    if nth 1 ab false then
      if nth 2 ab false then
        if nth 3 ab false then lit "Class E (reserved)" else lit "Class D (multicast)"
      else lit "Class C"
    else lit "Class B"
  else lit "Class A".
Lemma label_bits_spec (a : addr V4) : valid a -> class_label a = label_bits (abits a).
Proof.
  intros Ha. destruct (top_bits a Ha) as (A & B & C & D). unfold label_bits, class_label.
  destruct (nth 0 (abits a) false); [|now rewrite (proj2 (N.ltb_lt _ _) (proj1 A eq_refl))].
  destruct (N.ltb_spec (value a) (128 * 2 ^ 24)) as [L|L]; [now apply A in L|].
  specialize (B eq_refl). specialize (C eq_refl). specialize (D eq_refl).
  destruct (nth 1 (abits a) false); [|now rewrite (proj2 (N.ltb_lt _ _) (proj1 B eq_refl))].
  destruct (N.ltb_spec (value a) (192 * 2 ^ 24)) as [L'|L']; [now apply B in L'|].
  specialize (C eq_refl). specialize (D eq_refl).
  destruct (nth 2 (abits a) false); [|now rewrite (proj2 (N.ltb_lt _ _) (proj1 C eq_refl))].
  destruct (N.ltb_spec (value a) (224 * 2 ^ 24)) as [L2|L2]; [now apply C in L2|].
  specialize (D eq_refl).
  destruct (nth 3 (abits a) false); [|now rewrite (proj2 (N.ltb_lt _ _) (proj1 D eq_refl))].
  destruct (N.ltb_spec (value a) (240 * 2 ^ 24)) as [L3|L3]; [now apply D in L3|]. reflexivity.
Qed.

Lemma member_bit (n : net V4) (a : addr V4) i : member n a -> (i < 32)%nat ->
  nth i (abits (F := V4) (subnet_mask n)) false = true -> nth i (abits a) false = nth i (abits (base_addr n)) false.
Proof.
  intros Hm Hi. unfold abits. change (N.to_nat (width V4)) with 32%nat. rewrite !nth_nbits by lia.
  apply Hm. cbn [width]. lia.
Qed.
Lemma host_bit (n : net V4) i : wf_net n -> (i < 32)%nat ->
  nth i (abits (F := V4) (subnet_mask n)) false = false -> nth i (abits (F := V4) (base_addr n)) false = false.
Proof.
  intros Hn Hi. unfold abits. change (N.to_nat (width V4)) with 32%nat. rewrite !nth_nbits by lia.
  apply (wf_host _ Hn). cbn [width]. lia.
Qed.
Lemma base_member (F : family) (n : net F) : member n (base_addr n).
Proof. intros i _ _. reflexivity. Qed.

(** Setting one host bit of the base yields a member. *)
Lemma flipped (n : net V4) i : wf_net n -> (i < 32)%nat -> nth i (abits (F := V4) (subnet_mask n)) false = false ->
  exists a : addr V4, valid a /\ member n a /\
    forall j, (j < 32)%nat -> nth j (abits a) false = if Nat.eqb j i then true else nth j (abits (F := V4) (base_addr n)) false.
Proof.
  intros Hn Hi Hm. pose proof (wf_base _ Hn) as Hb. pose proof (@value_lt debug_env V4 _ Hb) as Hv.
  pose (x := N.setbit (value (base_addr n)) (N.of_nat (31 - i))).
  assert (x < 2 ^ width V4) as Hx.
  { apply lt_pow2_bits. intros j Hj. unfold x. rewrite N.setbit_eqb. apply orb_false_iff. split.
    - apply N.eqb_neq. cbn [width] in Hj. lia.
    - now apply (testbit_high _ (width V4)). }
  destruct (@value_surj debug_env V4 x Hx) as (a & Ha & E).
  exists a. split; [assumption|]. split.
  - intros j Hj Hmj. rewrite E. unfold x. rewrite N.setbit_eqb.
    destruct (N.eqb_spec (N.of_nat (31 - i)) j) as [<-|]; [|reflexivity].
    unfold abits in Hm. change (N.to_nat (width V4)) with 32%nat in Hm. rewrite nth_nbits in Hm by lia.
    replace (32 - 1 - i)%nat with (31 - i)%nat in Hm by lia. congruence.
  - intros j Hj. unfold abits. change (N.to_nat (width V4)) with 32%nat. rewrite !nth_nbits by lia.
    rewrite E. unfold x. rewrite N.setbit_eqb.
    destruct (Nat.eqb_spec j i) as [->|Hne].
    + replace (32 - 1 - i)%nat with (31 - i)%nat by lia. now rewrite N.eqb_refl.
    + replace (_ =? _) with false; [reflexivity|]. symmetry. apply N.eqb_neq. lia.
Qed.

(** The class of a network by the mask bit below the last bit that tells. *)
Definition label_of (n : net V4) : option str :=
  if nth (class_bits (base_addr n) - 1) (abits (F := V4) (subnet_mask n)) false
  then Some (class_label (base_addr n)) else None.

Lemma label_class (n : net V4) : wf_net n -> class_of V4 n (label_of n).
Proof.
  intros Hn. pose proof (wf_base _ Hn) as Hb. unfold label_of. rewrite <- (tell_bits_spec _ Hb).
  pose proof (fun i Hi => host_bit n i Hn Hi) as Hh.
  set (ab := abits (F := V4) (base_addr n)) in *. set (mb := abits (F := V4) (subnet_mask n)) in *.
  destruct (nth (tell_bits ab - 1) mb false) eqn:E; cbn [class_of].
  - intros a Ha Hm. rewrite !label_bits_spec by assumption. fold ab.
    pose proof (fun i Hi => member_bit n a i Hm Hi) as Mb. fold ab mb in Mb.
    pose proof (Hh 0%nat ltac:(lia)) as H0. pose proof (Hh 1%nat ltac:(lia)) as H1.
    pose proof (Hh 2%nat ltac:(lia)) as H2.
    pose proof (Mb 0%nat ltac:(lia)) as M0. pose proof (Mb 1%nat ltac:(lia)) as M1.
    pose proof (Mb 2%nat ltac:(lia)) as M2. pose proof (Mb 3%nat ltac:(lia)) as M3.
    unfold label_bits, tell_bits in *.
    destruct (nth 0 ab false); [|cbn in E; now rewrite (M0 E)].
    rewrite M0 by (destruct (nth 0 mb false); [reflexivity|discriminate (H0 eq_refl)]).
    destruct (nth 1 ab false); [|cbn in E; now rewrite (M1 E)].
    rewrite M1 by (destruct (nth 1 mb false); [reflexivity|discriminate (H1 eq_refl)]).
    destruct (nth 2 ab false); [|cbn in E; now rewrite (M2 E)].
    rewrite M2 by (destruct (nth 2 mb false); [reflexivity|discriminate (H2 eq_refl)]).
    cbn in E. now rewrite (M3 E).
  - intros t Ht. destruct (flipped n (tell_bits ab - 1) Hn) as (a & Ha & Hm & Fa).
    + unfold tell_bits. destruct (nth 0 ab false), (nth 1 ab false), (nth 2 ab false); lia.
    + exact E.
    + pose proof (Ht _ Hb (base_member V4 n)) as E1. pose proof (Ht _ Ha Hm) as E2.
      rewrite label_bits_spec in E1, E2 by assumption. rewrite <- E2 in E1. clear E2. fold ab in E1, Fa.
      pose proof (Fa 0%nat ltac:(lia)) as F0. pose proof (Fa 1%nat ltac:(lia)) as F1.
      pose proof (Fa 2%nat ltac:(lia)) as F2. pose proof (Fa 3%nat ltac:(lia)) as F3.
      pose proof (Hh 3%nat ltac:(lia)) as H3.
      unfold label_bits in E1. rewrite F0, F1, F2, F3 in E1. unfold tell_bits in E, E1.
      destruct (nth 0 ab false); [|discriminate E1 || (destruct (nth 1 ab false); [destruct (nth 2 ab false); [destruct (nth 3 ab false)|]|]; discriminate E1)].
      destruct (nth 1 ab false); [|discriminate E1 || (destruct (nth 2 ab false); [destruct (nth 3 ab false)|]; discriminate E1)].
      destruct (nth 2 ab false); [|discriminate E1 || (destruct (nth 3 ab false); discriminate E1)].
      cbn in E. rewrite (H3 E) in E1. discriminate E1.
Qed.

Lemma c59_class_exact : forall (n : net V4) (o : option str),
  wf_net n ->
  (class_of V4 n o <->
   o = if nth (class_bits (base_addr n) - 1) (abits (F := V4) (subnet_mask n)) false
       then Some (class_label (base_addr n)) else None).
Proof.
  intros n o Hn. fold (label_of n). pose proof (label_class n Hn) as L. split; [|now intros ->].
  intros H. destruct o as [t|], (label_of n) as [t'|]; cbn [class_of] in H, L; try reflexivity.
  - f_equal. rewrite <- (H _ (wf_base _ Hn) (base_member V4 n)). now apply (L _ (wf_base _ Hn) (base_member V4 n)).
  - now destruct (L t).
  - now destruct (H t').
Qed.

Lemma first_byte (R : Rust) (a : addr V4) b : valid a -> index (@to_bytes (addr V4) _ a) 0 = Ret b ->
  byte_bits b = firstn 8 (abits a).
Proof.
  intros Ha H. rewrite (abits_bts (F := V4)) by assumption. unfold bts.
  pose proof (bts_length (A := addr V4) a) as L.
  destruct (@to_bytes (addr V4) _ a) as [|c l]; [discriminate H|]. cbn in H. injection H as ->.
  reflexivity.
Qed.

Lemma class_io (R : Rust) (T : Terminal) (n : net V4) (b0 m0 : N) : wf_net n ->
  index (@to_bytes (addr V4) _ (base_addr n)) 0 = Ret b0 -> index (@to_bytes (addr V4) _ (subnet_mask n)) 0 = Ret m0 ->
  marks (output_ipv4_class (bytes_to_binary [b0]) (bytes_to_binary [m0]))
    (match label_of n with Some t => [Frag Magenta t] | None => [] end).
Proof.
  intros Hn Eb Em. pose proof (wf_base _ Hn) as Hb. pose proof (wf_mask _ Hn) as Hm.
  pose proof (fun i Hi => host_bit n i Hn Hi) as Hh.
  apply first_byte in Eb, Em; try assumption. rewrite !to_binary, Eb, Em. unfold label_of.
  rewrite <- (tell_bits_spec _ Hb), label_bits_spec by assumption.
  assert (List.length (abits (F := V4) (base_addr n)) = 32%nat) as Lb by reflexivity.
  assert (List.length (abits (F := V4) (subnet_mask n)) = 32%nat) as Lm by reflexivity.
  pose proof (Hh 0%nat ltac:(lia)) as H0. pose proof (Hh 1%nat ltac:(lia)) as H1.
  pose proof (Hh 2%nat ltac:(lia)) as H2. pose proof (Hh 3%nat ltac:(lia)) as H3.
  set (ab := abits (F := V4) (base_addr n)) in *. set (mb := abits (F := V4) (subnet_mask n)) in *. clearbody ab mb. clear - Lb Lm H0 H1 H2 H3.
  destruct ab as [|x0 [|x1 [|x2 [|x3 [|x4 [|x5 [|x6 [|x7 ab]]]]]]]]; try discriminate Lb.
  destruct mb as [|y0 [|y1 [|y2 [|y3 [|y4 [|y5 [|y6 [|y7 mb]]]]]]]]; try discriminate Lm.
  cbn [nth firstn] in *. clear - H0 H1 H2 H3.
  unfold output_ipv4_class, label_bits, tell_bits.
  destruct x0, x1, x2, x3, y0, y1, y2, y3;
    try (exfalso; first [discriminate (H0 eq_refl)|discriminate (H1 eq_refl)|discriminate (H2 eq_refl)|discriminate (H3 eq_refl)]);
    first [apply marks_write0 | apply marks_ret].
Qed.

Lemma c59_class_label : forall (R : Rust) (n : net V4) (b0 m0 : N),
  wf_net n ->
  index (@to_bytes (addr V4) _ (base_addr n)) 0 = Ret b0 -> index (@to_bytes (addr V4) _ (subnet_mask n)) 0 = Ret m0 ->
  exists o, class_of V4 n o /\
    forall T : Terminal, output_ipv4_class (bytes_to_binary [b0]) (bytes_to_binary [m0]) =
      (map (paint colors_enabled) (match o with Some t => [Frag Magenta t] | None => [] end), Ret tt).
Proof.
  intros R n b0 m0 Hn Eb Em. exists (label_of n). split; [now apply label_class|].
  intros T. now apply (class_io R T).
Qed.

(** ** The binary column *)
Lemma to_bytes_len (R : Rust) (F : family) (a : addr F) :
  List.length (@to_bytes (addr F) _ a) = match F with V4 => 4%nat | V6 => 16%nat end.
Proof. destruct F; reflexivity. Qed.

Lemma binary_plain (R : Rust) (T : Terminal) (F : family) (a : addr F) m class o : valid a -> (o <> None \/ m = None) ->
  marks (binary_of F a m class o) (column 8 a (fun _ => match o with Some c => c | None => Yellow end)).
Proof.
  intros Ha Ho. rewrite column_bits, (abits_bts (R := R)) by assumption. unfold bts.
  pose proof (to_bytes_len R F a) as L. destruct F; cbn [binary_of].
  - unfold output_binary_ipv4_address. cbv zeta. rewrite <- whole4 by exact L.
    change (@to_bytes (addr V4) (addr_ops V4) a) with (@to_bytes ipv4 ipv4_ops a) in *. rewrite L.
    apply v4_whole; [|intros mb E|rewrite L; lia].
    + destruct Ho as [Ho| ->]; [now left|now right].
    + destruct m; [|discriminate E]. injection E as <-. exact (to_bytes_len R V4 _).
  - unfold output_binary_ipv6_address. cbv zeta. rewrite <- whole6 by exact L.
    change (@to_bytes (addr V6) (addr_ops V6) a) with (@to_bytes ipv6 ipv6_ops a) in *. rewrite L.
    apply v6_whole; [|intros mb E|rewrite L; lia].
    + destruct Ho as [Ho| ->]; [now left|now right].
    + destruct m; [|discriminate E]. injection E as <-. exact (to_bytes_len R V6 _).
Qed.

Lemma binary_masked (R : Rust) (T : Terminal) (F : family) (a m : addr F) class : valid a -> valid m ->
  marks (binary_of F a (Some m) class None) (column 1 a (bit_colour a m class)).
Proof.
  intros Ha Hm. pose proof (to_bytes_len R F a) as L. pose proof (to_bytes_len R F m) as K. destruct F; cbn [binary_of].
  - unfold output_binary_ipv4_address. cbv zeta. cbn [option_map].
    rewrite (column_ext V4 1 a (bit_colour a m class) (class_colour class (abits a) (abits m)))
      by first [lia | intros; symmetry; now apply class_colour_spec].
    rewrite column_bits, !(abits_bts (R := R) (F := V4)) by assumption. unfold bts.
    change (@to_bytes (addr V4) (addr_ops V4) a) with (@to_bytes ipv4 ipv4_ops a) in *.
    change (@to_bytes (addr V4) (addr_ops V4) m) with (@to_bytes ipv4 ipv4_ops m) in *.
    destruct (@to_bytes ipv4 ipv4_ops a) as [|b bs]; [discriminate L|].
    rewrite <- masked4 by assumption. rewrite L. now apply v4_masked.
  - unfold output_binary_ipv6_address. cbv zeta. cbn [option_map].
    rewrite column_bits, (abits_bts (R := R) (F := V6)) by assumption. unfold bts.
    change (@to_bytes (addr V6) (addr_ops V6) a) with (@to_bytes ipv6 ipv6_ops a) in *.
    change (@to_bytes (addr V6) (addr_ops V6) m) with (@to_bytes ipv6 ipv6_ops m) in *.
    eapply marks_eq; [apply v6_masked; [rewrite L; exact K|lia]|]. rewrite L, masked6 by assumption.
    apply bits_column_ext. intros j. unfold bit_colour. cbn [class_bit]. rewrite andb_false_r.
    now rewrite (abits_bts (R := R) (F := V6)) by assumption.
Qed.

Lemma column_text1 (F : family) (a : addr F) c : map fst (coloured (column 1 a c)) = binary_text a.
Proof.
  rewrite column_bits. unfold binary_text, abits. generalize (value a). intros x.
  destruct F; vm_compute; reflexivity.
Qed.
Lemma column_text8 (F : family) (a : addr F) c : map fst (coloured (column 8 a c)) = binary_text a.
Proof.
  rewrite column_bits. unfold binary_text, abits. generalize (value a). intros x.
  destruct F; vm_compute; reflexivity.
Qed.

Lemma c57_text : forall (R : Rust) (F : family) (a : addr F) (m : option (addr F)) (class : bool) (o : option color),
  valid a -> (forall x, m = Some x -> valid x) ->
  exists ms, (forall T : Terminal, binary_of F a m class o = (map (paint colors_enabled) ms, Ret tt)) /\
    map fst (coloured ms) = binary_text a.
Proof.
  intros R F a m class o Ha Hm. destruct o as [c|].
  - eexists. split; [intros T; apply (binary_plain R T F a m class (Some c) Ha); left; discriminate|]. apply column_text8.
  - destruct m as [m|].
    + eexists. split; [intros T; apply (binary_masked R T F a m class Ha); now apply Hm|]. apply column_text1.
    + eexists. split; [intros T; apply (binary_plain R T F a None class None Ha); now right|]. apply column_text8.
Qed.

(** The binary text as bits and separators. *)
Definition skeleton (F : family) (bs : list bool) : list (option bool) :=
  tl (flat_map (fun g => None :: map Some (firstn (group_size F) (skipn (g * group_size F) bs)))
        (seq 0 (N.to_nat (width F) / group_size F))).
Definition skeleton_char (F : family) (o : option bool) : ascii :=
  match o with Some b => bit_char b | None => group_sep F end.
Lemma skeleton_text (F : family) (a : addr F) : binary_text a = map (skeleton_char F) (skeleton F (abits a)).
Proof. unfold binary_text, abits. generalize (value a). intros x. destruct F; vm_compute; reflexivity. Qed.
Lemma skeleton_sep (F : family) o : skeleton_char F o = group_sep F <-> o = None.
Proof. destruct o as [[|]|], F; cbn; split; intros H; try reflexivity; discriminate H. Qed.

Lemma c57_digits : forall (F : family) (a : addr F),
  filter (fun x => negb (Ascii.eqb x (group_sep F))) (binary_text a) = map bit_char (abits a) /\
  List.length (binary_text a) = (N.to_nat (width F) + N.to_nat (width F) / group_size F - 1)%nat /\
  forall i, (i < List.length (binary_text a))%nat ->
    (nth_error (binary_text a) i = Some (group_sep F) <-> (S i mod S (group_size F) = 0)%nat).
Proof.
  intros F a. rewrite skeleton_text. split; [|split].
  - assert (forall l, filter (fun x => negb (Ascii.eqb x (group_sep F))) (map (skeleton_char F) l) =
              map bit_char (flat_map (fun o => match o with Some b => [b] | None => [] end) l)) as E.
    { induction l as [|[[|]|] l IH]; cbn [map filter flat_map app]; rewrite ?IH; [reflexivity|..].
      - replace (Ascii.eqb (skeleton_char F (Some true)) (group_sep F)) with false by (now destruct F). reflexivity.
      - replace (Ascii.eqb (skeleton_char F (Some false)) (group_sep F)) with false by (now destruct F). reflexivity.
      - replace (Ascii.eqb (skeleton_char F None) (group_sep F)) with true by (now destruct F). reflexivity. }
    rewrite E. f_equal. unfold abits. generalize (value a). intros x. destruct F; vm_compute; reflexivity.
  - unfold abits. generalize (value a). intros x. destruct F; vm_compute; reflexivity.
  - intros i Hi.
    assert (map (fun i => match nth_error (skeleton F (abits a)) i with Some None => true | _ => false end)
              (seq 0 (List.length (map (skeleton_char F) (skeleton F (abits a))))) =
            map (fun i => Nat.eqb (S i mod S (group_size F)) 0)
              (seq 0 (List.length (map (skeleton_char F) (skeleton F (abits a)))))) as E.
    { clear Hi. unfold abits. generalize (value a). intros x. destruct F; vm_compute; reflexivity. }
    pose proof (ext_in_map E i ltac:(apply in_seq; lia)) as K. cbn beta in K. clear E.
    rewrite nth_error_map. rewrite <- Nat.eqb_eq, <- K.
    destruct (nth_error (skeleton F (abits a)) i) as [[b|]|] eqn:E; cbn [option_map skeleton_char].
    + split; [|discriminate]. intros H. injection H as H. apply (skeleton_sep F (Some b)) in H. discriminate H.
    + now split.
    + split; discriminate.
Qed.

Lemma column_at1 (F : family) (a : addr F) c j : (j < N.to_nat (width F))%nat ->
  nth_error (coloured (column 1 a c)) (j + j / group_size F) = Some (bit_char (nth j (abits a) false), c j).
Proof.
  intros Hj. rewrite column_bits. unfold abits. generalize (value a). intros x.
  pose (f1 := fun j => nth_error (coloured (bits_column F 1 (nbits (N.to_nat (width F)) x) c)) (j + j / group_size F)).
  pose (f2 := fun j => Some (bit_char (nth j (nbits (N.to_nat (width F)) x) false), c j)).
  apply (@ext_in_map _ _ f1 f2 (seq 0 (N.to_nat (width F)))); [|apply in_seq; lia].
  unfold f1, f2. clear. destruct F; vm_compute; reflexivity.
Qed.
Lemma column_at8 (F : family) (a : addr F) (c : color) j : (j < N.to_nat (width F))%nat ->
  nth_error (coloured (column 8 a (fun _ => c))) (j + j / group_size F) = Some (bit_char (nth j (abits a) false), c).
Proof.
  intros Hj. rewrite column_bits. unfold abits. generalize (value a). intros x.
  pose (f1 := fun j => nth_error (coloured (bits_column F 8 (nbits (N.to_nat (width F)) x) (fun _ => c))) (j + j / group_size F)).
  pose (f2 := fun j => Some (bit_char (nth j (nbits (N.to_nat (width F)) x) false), c)).
  apply (@ext_in_map _ _ f1 f2 (seq 0 (N.to_nat (width F)))); [|apply in_seq; lia].
  unfold f1, f2. clear. destruct F; vm_compute; reflexivity.
Qed.

Lemma c58_mask_colours : forall (R : Rust) (F : family) (a m : addr F) (class : bool),
  valid a -> valid m ->
  exists ms, (forall T : Terminal, binary_of F a (Some m) class None = (map (paint colors_enabled) ms, Ret tt)) /\
    forall j, (j < N.to_nat (width F))%nat ->
      nth_error (coloured ms) (j + j / group_size F) =
        Some (bit_char (nth j (abits a) false), bit_colour a m class j).
Proof.
  intros R F a m class Ha Hm. eexists. split; [intros T; now apply (binary_masked R T F a m class)|].
  intros j Hj. now apply column_at1.
Qed.

Lemma c58_single_colour : forall (R : Rust) (F : family) (a : addr F) (m : option (addr F)) (class : bool) (o : option color),
  valid a -> (o <> None \/ m = None) ->
  exists ms, (forall T : Terminal, binary_of F a m class o = (map (paint colors_enabled) ms, Ret tt)) /\
    forall j, (j < N.to_nat (width F))%nat ->
      nth_error (coloured ms) (j + j / group_size F) =
        Some (bit_char (nth j (abits a) false), match o with Some c => c | None => Yellow end).
Proof.
  intros R F a m class o Ha Ho. eexists. split; [intros T; now apply (binary_plain R T F a m class o)|].
  intros j Hj. now apply column_at8.
Qed.

Lemma shown_covers (n : net V4) : wf_net n -> class_shown (base_addr n) (subnet_mask n) = true ->
  forall j, (j < class_bits (base_addr n))%nat -> nth j (abits (F := V4) (subnet_mask n)) false = true.
Proof.
  intros Hn. pose proof (wf_base _ Hn) as Hb. rewrite <- (tell_bits_spec _ Hb). unfold class_shown, tell_bits. cbv zeta.
  intros E j Hj. rewrite !andb_true_iff in E. destruct E as [[[E0 E1] E2] E3].
  destruct (nth 0 (abits (F := V4) (base_addr n)) false), (nth 1 (abits (F := V4) (base_addr n)) false),
    (nth 2 (abits (F := V4) (base_addr n)) false); cbn [implb] in *;
    do 4 (destruct j as [|j]; [assumption || (exfalso; lia)|]); exfalso; lia.
Qed.

Lemma c58_class_sound : forall (n : net V4),
  wf_net n -> class_shown (base_addr n) (subnet_mask n) = true ->
  all_of_class n (class_label (base_addr n)) /\
  forall j, (j < class_bits (base_addr n))%nat -> nth j (abits (F := V4) (subnet_mask n)) false = true.
Proof.
  intros n Hn E. pose proof (shown_covers n Hn E) as C. split; [|exact C].
  pose proof (label_class n Hn) as L. unfold label_of in L. rewrite C in L; [exact L|].
  unfold class_bits. repeat match goal with |- context [if ?b then _ else _] => destruct b end; lia.
Qed.

Lemma c58_class_first_four : forall (n : net V4),
  wf_net n -> (forall i, (i < 4)%nat -> nth i (abits (F := V4) (subnet_mask n)) false = true) ->
  class_shown (base_addr n) (subnet_mask n) = true.
Proof.
  intros n Hn H. unfold class_shown. cbv zeta. rewrite !H by lia.
  now destruct (nth 0 _ false), (nth 1 _ false), (nth 2 _ false).
Qed.

Lemma c58_class_complete_refuted : exists (n : net V4) (t : str),
  wf_net n /\ all_of_class n t /\ class_shown (base_addr n) (subnet_mask n) = false.
Proof.
  exists (@new_with_mask (addr V4) ipv4_ops (ip4 64 0 0 0) (ip4 192 0 0 0)), (lit "Class A").
  assert (wf_net (F := V4) (@new_with_mask (addr V4) ipv4_ops (ip4 64 0 0 0) (ip4 192 0 0 0))) as Hn.
  { apply (c17_with_mask debug_env V4); reflexivity. }
  split; [exact Hn|]. split; [|reflexivity].
  pose proof (label_class _ Hn) as L. exact L.
Qed.

Lemma c61_padding : forall (text : str) (w : Z),
  pad text w =
    (if (w <? 0)%Z then repeat " "%char (Z.to_nat (- w) - List.length text) ++ text
     else text ++ repeat " "%char (Z.to_nat w - List.length text)).
Proof.
  intros text w. unfold pad.
  destruct (Z.ltb_spec 0 w) as [L|L], (Z.ltb_spec w 0) as [L'|L']; try lia.
  - destruct (Z.ltb_spec (Z.of_nat (List.length text)) w) as [K|K].
    + do 2 f_equal. lia.
    + replace (Z.to_nat w - List.length text)%nat with 0%nat by lia. cbn [repeat]. now rewrite app_nil_r.
  - destruct (Z.ltb_spec w (- Z.of_nat (List.length text))) as [K|K].
    + do 2 f_equal. lia.
    + replace (Z.to_nat (- w) - List.length text)%nat with 0%nat by lia. reflexivity.
  - replace (Z.to_nat w - List.length text)%nat with 0%nat by lia. cbn [repeat]. now rewrite app_nil_r.
Qed.

Lemma c61_length : forall (text : str) (w : Z),
  List.length (pad text w) = Nat.max (List.length text) (Z.abs_nat w) /\
  exists before after, pad text w = before ++ text ++ after.
Proof.
  intros text w. rewrite c61_padding. destruct (Z.ltb_spec w 0) as [L|L]; rewrite app_length, repeat_length.
  - split; [lia|]. eexists _, []. now rewrite app_nil_r.
  - split; [lia|]. exists [], (repeat " "%char (Z.to_nat w - List.length text)). reflexivity.
Qed.

Lemma c61_written : forall (T : Terminal) (text : str) (c : option color) (w : Z),
  write_in_color text c w =
    ([match c with
      | Some c => if colors_enabled then EvStyled c (pad text w) else line (pad text w)
      | None => line (pad text w)
      end], Ret tt).
Proof. intros T text c w. unfold write_in_color, line. destruct colors_enabled, c; reflexivity. Qed.

(** ** The report *)
Definition class_out `{Terminal} (F : family) : str -> str -> io unit :=
  match F with V4 => output_ipv4_class | V6 => fun _ _ => io_ret tt end.
Lemma show_generic (R : Rust) (T : Terminal) (F : family) (n : net F) a :
  show_of F n a = output_network (Z.of_nat 11) (Z.of_nat (text_width F)) (binary_of F) (class_out F) n a.
Proof. destruct F; reflexivity. Qed.

Lemma first_byte_some (R : Rust) (F : family) (a : addr F) : exists b, index (@to_bytes (addr F) _ a) 0 = Ret b.
Proof. destruct F; eexists; reflexivity. Qed.

Lemma class_of_exists (R : Rust) (F : family) (n : net F) : wf_net n ->
  exists o, class_of F n o /\
    forall (T : Terminal) b0 m0, index (@to_bytes (addr F) _ (base_addr n)) 0 = Ret b0 ->
      index (@to_bytes (addr F) _ (subnet_mask n)) 0 = Ret m0 ->
      marks (class_out F (bytes_to_binary [b0]) (bytes_to_binary [m0]))
        (match o with Some t => [Frag Magenta t] | None => [] end).
Proof.
  intros Hn. destruct F.
  - exists (label_of n). split; [now apply label_class|]. intros T b0 m0 Eb Em. now apply (class_io R T).
  - exists None. split; [reflexivity|]. intros T b0 m0 _ _. apply marks_ret.
Qed.

Section Report.
  Context {R : Rust} {F : family}.

  Lemma marks_columns {T : Terminal} label text :
    marks (output_initial_columns (Z.of_nat 11) (Z.of_nat (text_width F)) label text) (headings (F := F) label text).
  Proof. unfold output_initial_columns, headings. apply (marks_seq _ _ [_] [_]); apply marks_write. Qed.

  Lemma marks_break {T : Terminal} : marks (println []) [break].
  Proof. reflexivity. Qed.

  Lemma marks_assoc {T : Terminal} {X Y} (m : io X) (f : X -> io Y) (g : Y -> io unit) ms :
    marks (io_bind (io_bind m f) g) ms <-> marks (io_bind m (fun x => io_bind (f x) g)) ms.
  Proof.
    unfold marks. enough (io_bind (io_bind m f) g = io_bind m (fun x => io_bind (f x) g)) as -> by reflexivity.
    unfold io_bind. destruct m as [ev [x| |]]; cbn [fst snd]; try reflexivity.
    destruct (snd (f x)); cbn [fst snd]; try reflexivity. now rewrite app_assoc.
  Qed.

  (** A row followed by more. *)
  Lemma marks_row {T : Terminal} label text (a : addr F) c o (k : io unit) ms :
    valid a -> c = match o with Some c => c | None => Yellow end -> marks k ms ->
    marks (output_initial_columns (Z.of_nat 11) (Z.of_nat (text_width F)) label text ;;;
           binary_of F a None false o ;;; println [] ;;; k) (row label text a c ++ ms).
  Proof.
    intros Ha -> Hk. unfold row. rewrite <- !app_assoc.
    apply marks_seq; [apply marks_columns|]. apply marks_seq; [apply binary_plain; auto|].
    apply marks_seq; [apply marks_break|assumption].
  Qed.
  Lemma marks_masked_row {T : Terminal} label text (a m : addr F) class (k : io unit) ms :
    valid a -> valid m -> marks k ms ->
    marks (output_initial_columns (Z.of_nat 11) (Z.of_nat (text_width F)) label text ;;;
           binary_of F a (Some m) class None ;;; println [] ;;; k) (masked_row label text a m class ++ ms).
  Proof.
    intros Ha Hm Hk. unfold masked_row. rewrite <- !app_assoc.
    apply marks_seq; [apply marks_columns|]. apply marks_seq; [now apply binary_masked|].
    apply marks_seq; [apply marks_break|assumption].
  Qed.
End Report.

Lemma c56_report : forall (R : Rust) (F : family) (n : net F) (a : option (addr F)),
  wf_net n -> (forall x, a = Some x -> valid x) ->
  exists hosts bc k class,
    host_range n hosts /\ broadcast_of n bc /\ count n k /\ class_of F n class /\
    forall T : Terminal,
      show_of F n a = (map (paint colors_enabled) (report n a hosts bc k class), Ret tt).
Proof.
  intros R F n a Hn Ha. pose proof (wf_base _ Hn) as Hb. pose proof (wf_mask _ Hn) as Hm.
  destruct (c23_address_count R F n Hn) as [Hk _]. destruct (c23_host_count R F n Hn) as [Hc _].
  set (k := address_count n) in *.
  destruct (c24_first_host R F n k Hn Hk) as [F1 F2]. destruct (c26_last_host R F n k Hn Hk) as [L1 L2].
  destruct (c25_broadcast R F n k Hn Hk) as [B1 B2].
  destruct (class_of_exists R F n Hn) as (class & Hcl & Mcl).
  assert (exists hosts, host_range n hosts /\
            match hosts with
            | None => first_host_addr n = Ret None
            | Some (x, y) => first_host_addr n = Ret (Some x) /\ last_host_addr n = Ret (Some y) /\ valid x /\ valid y
            end) as (hosts & Hh & Eh).
  { destruct (N.lt_ge_cases k 4) as [Lk|Lk].
    - exists None. split; [exists k; now split|]. now apply F1.
    - destruct (F2 Lk) as (x & Ex & Vx & Mx & Lo & Lx & Ax). destruct (L2 Lk) as (y & h & Ey & Vy & My & Hi & Ly & Ay).
      exists (Some (x, y)). split; [|repeat (split; [assumption|]); assumption].
      exists k. split; [assumption|]. split; [assumption|]. exists (base_addr n), h.
      repeat (split; [assumption|]). intros c Vc Mc.
      destruct (Ax c Vc Mc) as [->|A]; [now left|]. destruct (Ay c Vc Mc) as [->|A']; [now right; left|].
      right. right. lia. }
  assert (exists bc, broadcast_of n bc /\ broadcast_addr n = Ret bc /\ (forall b, bc = Some b -> valid b)) as (bc & Hbc & Ebc & Vbc).
  { destruct (N.lt_ge_cases k 2) as [Lk|Lk].
    - exists None. split; [exists k; now split|]. split; [now apply B1|discriminate].
    - destruct (B2 Lk) as (b & Eb & Hi). exists (Some b). split; [exists k; now split|]. split; [assumption|].
      intros b' [= <-]. apply Hi. }
  exists hosts, bc, k, class. repeat (split; [assumption|]). intros T.
  rewrite show_generic.
  enough (marks (output_network (Z.of_nat 11) (Z.of_nat (text_width F)) (binary_of F) (class_out F) n a)
            (report n a hosts bc k class)) as M by exact M.
  unfold output_network, report. cbv zeta. apply marks_seq; [|apply marks_masked_row; try assumption].
  - destruct a as [a|]; [|apply marks_ret]. specialize (Ha a eq_refl). unfold output_given_address. cbv zeta.
    assert (@valid F (bitwise_negate (subnet_mask n))) as Hw.
    { now apply (c10_negate R F). }
    apply marks_masked_row; try assumption. apply marks_row; [assumption|reflexivity|].
    unfold cisco_wildcard.
    apply marks_row; [assumption|reflexivity|]. apply (marks_seq _ _ [_] [_]); [apply marks_write0|apply marks_break].
  - rewrite Hc. replace (0 <? Z.of_N k - 2)%Z with (2 <? k) by (destruct (N.ltb_spec 2 k), (Z.ltb_spec 0 (Z.of_N k - 2)); lia).
    assert (marks
      (bc0 <-- io_lift (broadcast_addr n);;
       match bc0 with
       | Some bc1 =>
           output_initial_columns (Z.of_nat 11) (Z.of_nat (text_width F)) (lit "Broadcast:") (display bc1);;;
           binary_of F bc1 None false None
       | None => write_in_color (lit "no broadcast") (Some LABEL_COLOR) 0
       end;;;
       println [];;;
       if 2 <? k
       then output_initial_columns (Z.of_nat 11) (Z.of_nat (text_width F)) (lit "Hosts/Net:") (fmt_Z (Z.of_N k - 2));;;
         b0 <-- io_lift (index (to_bytes (base_addr n)) 0);;
         m0 <-- io_lift (index (to_bytes (subnet_mask n)) 0);;
         class_out F (bytes_to_binary [b0]) (bytes_to_binary [m0]);;; println []
       else write_in_color (lit "no hosts/net") (Some LABEL_COLOR) 0)
      ((match bc with
        | Some b => row (lit "Broadcast:") (display b) b Yellow
        | None => [Frag White (lit "no broadcast"); break]
        end) ++
       (if 2 <? k then
          headings (F := F) (lit "Hosts/Net:") (fmt_dec (k - 2)) ++
          (match class with Some t => [Frag Magenta t] | None => [] end) ++ [break]
        else [Frag White (lit "no hosts/net")]))) as Rest.
    { rewrite Ebc, io_lift_ret.
      match goal with |- marks (_ ;;; _ ;;; ?tail) (_ ++ ?ms) => assert (marks tail ms) as Tl end.
      { destruct (N.ltb_spec 2 k) as [L2k|L2k]; [|apply marks_write0].
        destruct (first_byte_some R F (base_addr n)) as (b0 & Eb0). destruct (first_byte_some R F (subnet_mask n)) as (m0 & Em0).
        replace (fmt_Z (Z.of_N k - 2)) with (fmt_dec (k - 2)).
        2:{ unfold fmt_Z. destruct (Z.of_N k - 2)%Z eqn:Ez; f_equal; lia. }
        apply marks_seq; [apply marks_columns|]. rewrite Eb0, io_lift_ret, Em0, io_lift_ret.
        apply marks_seq; [now apply Mcl|apply marks_break]. }
      destruct bc as [b|].
      - apply marks_assoc. apply marks_row; [now apply Vbc|reflexivity|exact Tl].
      - apply (marks_seq _ _ [_] (_ :: _)); [apply marks_write0|]. now apply (marks_seq _ _ [_] _). }
    destruct hosts as [[x y]|].
    + destruct Eh as (-> & Ey & Vx & Vy). rewrite io_lift_ret. rewrite <- app_assoc.
      match goal with |- marks (?m ;;; ?k) _ =>
        assert (marks m (row (lit "HostMin:") (display x) x Yellow ++
                         headings (F := F) (lit "HostMax:") (display y) ++ column 8 y (fun _ => Yellow))) as Q end.
      { apply marks_row; [assumption|reflexivity|]. rewrite Ey, io_lift_ret. cbn [unwrap]. rewrite io_lift_ret.
        apply marks_seq; [apply marks_columns|]. apply binary_plain; auto. }
      eapply marks_eq; [apply marks_seq; [exact Q|]; apply marks_seq; [apply marks_break|exact Rest]|].
      unfold row. rewrite <- !app_assoc. reflexivity.
    + rewrite Eh, io_lift_ret. apply (marks_seq _ _ [_] (_ :: _)); [apply marks_write0|].
      apply (marks_seq _ _ [_] _); [apply marks_break|exact Rest].
Qed.

Lemma c56_returns : forall (R : Rust) (T : Terminal) (F : family) (n : net F) (a : option (addr F)),
  wf_net n -> (forall x, a = Some x -> valid x) -> snd (show_of F n a) = Ret tt.
Proof.
  intros R T F n a Hn Ha. destruct (c56_report R F n a Hn Ha) as (h & b & k & c & _ & _ & _ & _ & E). now rewrite E.
Qed.

Lemma c56_printer : forall (R : Rust) (T : Terminal) (F : family), prints (show_of F).
Proof. intros R T F n a Hn Ha. now apply c56_returns. Qed.
