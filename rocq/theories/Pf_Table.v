(** * Pf_Table: proofs for P_Table *)
From Verif Require Import RustBase Addr BitManip Cidr Net Parse Derange Minimize Split Resize Console ShowNet Main Messages Process.
From Verif Require Import SpecIO SpecFate SpecTable Bits Laws NetFacts SetFacts Family Order TextFacts Utf8Facts SplitFacts MinimizeFacts.
From Verif Require Import Pf_Text Pf_Net Pf_Netspec Pf_Minimize Pf_Join Pf_Split Pf_Show Pf_Main Pf_Compose Pf_Process Pf_Runs Pf_Crash Pf_Told Pf_Whole Pf_Fate Demo.
From Coq Require Import ZifyBool ZifyNat ZifyN.
Ltac Zify.zify_post_hook ::= idtac.

(** ** Lengths of texts *)
Lemma numeral_from_pow r acc s x : numeral_from r acc s = Some x -> acc * r ^ N.of_nat (List.length s) <= x.
Proof.
  revert acc. induction s as [|c s IH]; intros acc; cbn [numeral_from List.length].
  - intros E. injection E as ->. change (N.of_nat 0) with 0. rewrite N.pow_0_r. lia.
  - destruct (digit_below r c) as [d|]; [|discriminate]. intros E. apply IH in E. rewrite Nat2N.inj_succ, N.pow_succ_r'. nia.
Qed.
Lemma usual_len r x s k : 2 <= r -> usual r x s -> x < r ^ N.of_nat k -> (1 <= k)%nat -> (List.length s <= k)%nat.
Proof.
  intros Hr (Hn & _ & Hz) L Hk. destruct s as [|c s]; [cbn; lia|]. cbn [List.length].
  destruct (Nat.le_gt_cases (S (List.length s)) k) as [H|H]; [exact H|exfalso].
  assert (Hc : c <> "0"%char). { intros ->. specialize (Hz s eq_refl). subst s. cbn in H. lia. }
  unfold numeral in Hn. cbn [numeral_from] in Hn. destruct (digit_below r c) as [d|] eqn:D; [|discriminate].
  apply below_digit in D. assert (d <> 0) by (intros ->; apply Hc, digit_zero, D).
  apply numeral_from_pow in Hn. assert (r ^ N.of_nat k <= r ^ N.of_nat (List.length s)) by (apply N.pow_le_mono_r; lia). nia.
Qed.
Lemma dec_len x k : x < 10 ^ N.of_nat k -> (1 <= k)%nat -> (List.length (fmt_dec x) <= k)%nat.
Proof. intros L H. apply (usual_len 10 x); [lia|apply usual_dec|exact L|exact H]. Qed.
Lemma sep_len c m ts : Forall (fun t : str => (List.length t <= m)%nat) ts -> (List.length (separated c ts) <= List.length ts * (m + 1) - 1)%nat.
Proof.
  intros H. induction H as [|t ts Ht H IH]; [cbn; lia|]. cbn [separated]. destruct ts as [|t' ts]; [cbn [List.length]; lia|].
  rewrite app_length. cbn [List.length] in *. lia.
Qed.
Lemma usuals_len r k xs ts : 2 <= r -> (1 <= k)%nat -> Forall (fun x => x < r ^ N.of_nat k) xs -> Forall2 (usual r) xs ts ->
  Forall (fun t : str => (List.length t <= k)%nat) ts.
Proof. intros Hr Hk H T. induction T as [|x t xs ts U T IH]; constructor; inversion H; subst; [now apply (usual_len r x)|now apply IH]. Qed.

Lemma spelled_len F (a : addr F) t : spelled a t -> (List.length t <= longest F)%nat.
Proof.
  destruct F; cbn [spelled longest].
  - intros (bs & ts & L & U & _ & T & ->). pose proof (Forall2_len _ _ _ T) as L'.
    pose proof (sep_len "." 3 ts) as S. rewrite <- L', L in S. apply S.
    apply (usuals_len 10 3 bs); [lia|lia| |exact T]. eapply Forall_impl; [|exact U]. intros x Hx. cbn beta in Hx. change (10 ^ N.of_nat 3) with 1000. lia.
  - intros (gs & ts & (_ & L & U & _) & T & H). pose proof (Forall2_len _ _ _ T) as L'.
    assert (B : Forall (fun t : str => (List.length t <= 4)%nat) ts).
    { apply (usuals_len 16 4 gs); [lia|lia| |exact T]. eapply Forall_impl; [|exact U]. intros x Hx. cbn beta in Hx. change (16 ^ N.of_nat 4) with 65536. lia. }
    destruct H as [[_ ->]|(z & k & ((K1 & K2 & _) & _) & ->)].
    + pose proof (sep_len ":" 4 ts B) as S. rewrite <- L', L in S. exact S.
    + rewrite !app_length. change (List.length (lit "::")) with 2%nat.
      pose proof (sep_len ":" 4 (firstn z ts)) as S1. pose proof (sep_len ":" 4 (skipn (z + k) ts)) as S2.
      rewrite firstn_length in S1. rewrite skipn_length in S2.
      assert (B1 : Forall (fun t : str => (List.length t <= 4)%nat) (firstn z ts)).
      { rewrite <- (firstn_skipn z ts) in B. now apply Forall_app in B. }
      assert (B2 : Forall (fun t : str => (List.length t <= 4)%nat) (skipn (z + k) ts)).
      { rewrite <- (firstn_skipn (z + k) ts) in B. now apply Forall_app in B. }
      specialize (S1 B1). specialize (S2 B2). lia.
Qed.
Lemma display_len (R : Rust) F (a : addr F) : valid a -> (List.length (display a) <= longest F)%nat.
Proof. intros V. apply (spelled_len F a), spelled_display, V. Qed.

Lemma prefix_len F (n : net F) p : wf_net n -> cidr_prefix n = Some p -> (List.length (fmt_dec p) <= longest_prefix F)%nat.
Proof.
  intros W E. apply (wf_prefix n W) in E. destruct E as [E _]. apply dec_len.
  - destruct F; cbn [longest_prefix width] in *; [change (10 ^ N.of_nat 2) with 100|change (10 ^ N.of_nat 3) with 1000]; lia.
  - destruct F; cbn; lia.
Qed.
Lemma net_len F (n : net F) t : wf_net n -> net_spelled n t ->
  (List.length t <= longest F + 1 + match cidr_prefix n with Some _ => longest_prefix F | None => longest F end)%nat.
Proof.
  intros W (b & m & B & -> & M). apply spelled_len in B. rewrite app_length. cbn [List.length].
  destruct (cidr_prefix n) as [p|] eqn:E.
  - apply usual_dec_iff in M. subst m. pose proof (prefix_len F n p W E). lia.
  - apply spelled_len in M. lia.
Qed.

Lemma c96_texts : forall (R : Rust) (F : family) (a : addr F) (n : net F),
  valid a -> wf_net n ->
  (List.length (display a) <= longest F)%nat /\
  (List.length (net_display n) <= longest F + 1 + match cidr_prefix n with Some _ => longest_prefix F | None => longest F end)%nat.
Proof.
  intros R F a n V W. split; [now apply display_len|]. apply net_len; [exact W|]. now apply (c88_net_spelled R F n).
Qed.

(** ** Lines *)
Lemma pieces_some x s : exists t ts, pieces x s = t :: ts.
Proof.
  induction s as [|c s (t & ts & IH)]; [now exists [], []|]. cbn [pieces]. rewrite IH. destruct (Ascii.eqb c x); eauto.
Qed.
Lemma pieces_cut x s t : pieces x (s ++ x :: t) = pieces x s ++ pieces x t.
Proof.
  induction s as [|c s IH].
  - cbn [app pieces]. destruct (pieces_some x t) as (u & us & ->). now rewrite Ascii.eqb_refl.
  - cbn [app pieces]. rewrite IH. destruct (pieces_some x s) as (u & us & ->). cbn [app]. destruct (Ascii.eqb c x); reflexivity.
Qed.
Lemma pieces_whole x s : ~ In x s -> pieces x s = [s].
Proof.
  induction s as [|c s IH]; intros H; [reflexivity|]. cbn [pieces In] in *. rewrite IH by tauto.
  destruct (Ascii.eqb_spec c x) as [->|]; [tauto|reflexivity].
Qed.
Lemma pieces_len x s : Forall (fun l => (List.length l <= List.length s)%nat) (pieces x s).
Proof.
  induction s as [|c s IH]; [repeat constructor|]. cbn [pieces]. destruct (pieces_some x s) as (u & us & E). rewrite E in *.
  inversion IH as [|? ? H1 H2]; subst. assert (H3 : Forall (fun l => (List.length l <= List.length (c :: s))%nat) us).
  { eapply Forall_impl; [|exact H2]. intros l Hl. cbn beta in *. cbn [List.length]. unfold str in *. lia. }
  unfold str in *. cbn [List.length] in *. destruct (Ascii.eqb c x).
  - apply Forall_cons; [cbn; lia|]. apply Forall_cons; [lia|exact H3].
  - apply Forall_cons; [cbn [List.length]; lia|exact H3].
Qed.
Lemma fits_cut w s t : fits w (s ++ nl :: t) <-> fits w s /\ fits w t.
Proof. unfold fits. rewrite pieces_cut. apply Forall_app. Qed.
Lemma fits_short w s : (List.length s <= w)%nat -> fits w s.
Proof. intros H. eapply Forall_impl; [|apply pieces_len]. intros l Hl. cbn beta in *. unfold str in *. lia. Qed.
Lemma fits_mono w w' s : (w <= w')%nat -> fits w s -> fits w' s.
Proof. intros H. apply Forall_impl. intros l Hl. lia. Qed.

(** ** Rows *)
Definition lead (F : family) (label text : str) : str := fill 11 label ++ fill (text_width F) text.
Lemma fill_len k s : (List.length s <= k)%nat -> List.length (fill k s) = k.
Proof. intros H. unfold fill. rewrite app_length, repeat_length. lia. Qed.
Lemma fill_last k s : (List.length s < S k)%nat -> nth_error (fill (S k) s) k = Some " "%char.
Proof.
  intros H. unfold fill. rewrite nth_error_app2 by lia. remember (S k - List.length s)%nat as j. remember (k - List.length s)%nat as i.
  assert (L : (i < j)%nat) by lia. clear -L. revert i L. induction j as [|j IH]; intros i L; [lia|]. cbn [repeat].
  destruct i as [|i]; [reflexivity|]. cbn [nth_error]. apply IH. lia.
Qed.
Lemma text_width_S F : text_width F = S (Nat.pred (text_width F)).
Proof. destruct F; reflexivity. Qed.

Section Rows.
  Context {R : Rust} (F : family) (label text : str).
  Hypothesis Hl : (List.length label < 11)%nat.
  Hypothesis Ht : (List.length text < text_width F)%nat.

  Lemma lead_len : List.length (lead F label text) = (11 + text_width F)%nat.
  Proof. unfold lead. rewrite app_length, !fill_len by lia. reflexivity. Qed.
  Lemma lead_cells rest : cells F (lead F label text ++ rest) = true.
  Proof.
    unfold cells, char_at, lead. rewrite <- app_assoc. apply andb_true_intro. split.
    - rewrite nth_error_app1 by (rewrite fill_len; lia). rewrite fill_last by lia. reflexivity.
    - rewrite nth_error_app2 by (rewrite fill_len; lia). rewrite fill_len by lia.
      replace (10 + text_width F - 11)%nat with (Nat.pred (text_width F)) by (pose proof (text_width_S F); lia).
      rewrite nth_error_app1 by (rewrite fill_len; pose proof (text_width_S F); lia).
      rewrite text_width_S at 1. rewrite fill_last by (rewrite <- text_width_S; exact Ht). reflexivity.
  Qed.
  Lemma row_tabular (a : addr F) : tabular F (lead F label text ++ binary_text a) = true.
  Proof.
    destruct (c57_digits F a) as (D & L & Sp). unfold tabular. rewrite lead_cells, app_length, lead_len, L.
    change (N.to_nat (width F) + N.to_nat (width F) / group_size F - 1)%nat with (bits_width F). unfold line_width. rewrite Nat.eqb_refl. cbn [andb].
    apply forallb_forall. intros i Hi. apply in_seq in Hi. unfold char_at. rewrite nth_error_app2 by (rewrite lead_len; lia). rewrite lead_len.
    replace (11 + text_width F + i - (11 + text_width F))%nat with i by lia.
    assert (Li : (i < List.length (binary_text a))%nat) by (rewrite L; unfold bits_width in Hi; lia).
    specialize (Sp i Li). assert (M : (S i mod S (group_size F) = 0 <-> i mod S (group_size F) = group_size F)%nat).
    { pose proof (Nat.div_mod_eq i (Datatypes.S (group_size F))) as E. pose proof (Nat.mod_upper_bound i (Datatypes.S (group_size F)) (Nat.neq_succ_0 _)) as B.
      pose proof (Nat.div_mod_eq (Datatypes.S i) (Datatypes.S (group_size F))) as E'. pose proof (Nat.mod_upper_bound (Datatypes.S i) (Datatypes.S (group_size F)) (Nat.neq_succ_0 _)) as B'.
      revert E B E' B'. generalize (i / Datatypes.S (group_size F))%nat (i mod Datatypes.S (group_size F))%nat (Datatypes.S i / Datatypes.S (group_size F))%nat (Datatypes.S i mod Datatypes.S (group_size F))%nat. destruct F; cbn [group_size]; intros; split; intros; lia. }
    destruct (nth_error (binary_text a) i) as [c|] eqn:E; [|apply nth_error_None in E; lia].
    destruct (Nat.eqb_spec (i mod Datatypes.S (group_size F)) (group_size F)) as [Q|Q].
    - apply M, Sp in Q. injection Q as ->. apply Ascii.eqb_refl.
    - assert (Hc : c <> group_sep F) by (intros ->; apply Q, M, Sp; reflexivity).
      assert (In c (map bit_char (abits a))) as I.
      { rewrite <- D. apply filter_In. split; [now apply nth_error_In in E|]. destruct (Ascii.eqb_spec c (group_sep F)); [contradiction|reflexivity]. }
      apply in_map_iff in I. destruct I as ([] & <- & _); reflexivity.
  Qed.
End Rows.

(** [s] is the lines [ls], each with its line break. *)
Definition leads (s : str) (ls : list str) : Prop := forall t, pieces nl (s ++ t) = ls ++ pieces nl t.
Lemma leads_nil : leads [] [].
Proof. intros t. reflexivity. Qed.
Lemma leads_app s ls s' ls' : leads s ls -> leads s' ls' -> leads (s ++ s') (ls ++ ls').
Proof. intros H H' t. rewrite <- !app_assoc, H, H'. reflexivity. Qed.
Lemma leads_line s : ~ In nl s -> leads (s ++ [nl]) [s].
Proof. intros H t. rewrite <- app_assoc. cbn [app]. rewrite pieces_cut, pieces_whole by exact H. reflexivity. Qed.
Lemma txt_stdout ms : stdout (map (paint true) ms) = txt true ms.
Proof. unfold stdout, txt. induction ms as [|[c s|s|e] ms IH]; cbn [map flat_map paint shown said]; rewrite ?IH; reflexivity. Qed.

Lemma nodup_map {X Y} (f : X -> Y) l : (forall x y, In x l -> In y l -> f x = f y -> x = y) -> NoDup l -> NoDup (map f l).
Proof.
  intros H N. induction N as [|x l Hx N IH]; [constructor|]. cbn [map]. constructor.
  - intros I. apply in_map_iff in I. destruct I as (y & E & Hy). apply Hx. rewrite <- (H y x); [exact Hy|now right|now left|exact E].
  - apply IH. intros y z Hy Hz. apply H; now right.
Qed.
Lemma count_max (R : Rust) F (n : net F) k : count n k -> k <= 2 ^ width F.
Proof.
  intros (l & N & H & <-). rewrite <- (map_length value). apply NoDup_bound.
  - apply nodup_map; [|exact N]. intros x y Hx Hy E. apply H in Hx, Hy. now apply (value_inj (R := R)).
  - intros x Hx. apply in_map_iff in Hx. destruct Hx as (a & <- & Ha). apply H in Ha. apply value_lt, Ha.
Qed.

Section Report.
  Context {R : Rust} (F : family) (n : net F).
  Hypothesis W : wf_net n.

  Definition mask_cell : str := match cidr_prefix n with
    | Some p => display (subnet_mask n) ++ lit " = " ++ fmt_dec p | None => display (subnet_mask n) end.
  Definition net_cell : str := match cidr_prefix n with
    | Some p => display (base_addr n) ++ lit "/" ++ fmt_dec p | None => display (base_addr n) end.
  Definition liner (label text : str) (a : addr F) : str := lead F label text ++ binary_text a.
  Definition class_cell (o : option str) : str := match o with Some t => t | None => [] end.

  Definition report_lines a (ho : option (addr F * addr F)) (bc : option (addr F)) (k : N) (cl : option str) : list str :=
    match a with
    | Some a => [liner (lit "Address:") (display a) a; liner (lit "Netmask:") mask_cell (subnet_mask n);
                 liner (lit "Wildcard:") (display (bitwise_negate (subnet_mask n))) (bitwise_negate (subnet_mask n)); lit "=>"]
    | None => []
    end ++
    [liner (lit "Network:") net_cell (base_addr n)] ++
    match ho with
    | Some (x, y) => [liner (lit "HostMin:") (display x) x; liner (lit "HostMax:") (display y) y]
    | None => [lit "no hosts"]
    end ++
    match bc with Some b => [liner (lit "Broadcast:") (display b) b] | None => [lit "no broadcast"] end ++
    if 2 <? k then [lead F (lit "Hosts/Net:") (fmt_dec (k - 2)) ++ class_cell cl; []] else [lit "no hosts/net"].

  Lemma mask_cell_len : (List.length mask_cell < text_width F)%nat.
  Proof.
    unfold mask_cell. pose proof (display_len R F _ (wf_mask n W)) as L. destruct (cidr_prefix n) as [p|] eqn:E.
    - pose proof (prefix_len F n p W E) as P. rewrite !app_length. change (List.length (lit " = ")) with 3%nat.
      destruct F; cbn [longest longest_prefix text_width] in *; lia.
    - destruct F; cbn [longest text_width] in *; lia.
  Qed.
  Lemma net_cell_len : (List.length net_cell < text_width F)%nat.
  Proof.
    unfold net_cell. pose proof (display_len R F _ (wf_base n W)) as L. destruct (cidr_prefix n) as [p|] eqn:E.
    - pose proof (prefix_len F n p W E) as P. rewrite !app_length. change (List.length (lit "/")) with 1%nat.
      destruct F; cbn [longest longest_prefix text_width] in *; lia.
    - destruct F; cbn [longest text_width] in *; lia.
  Qed.
  Lemma addr_cell_len (a : addr F) : valid a -> (List.length (display a) < text_width F)%nat.
  Proof. intros V. pose proof (display_len R F a V). destruct F; cbn [longest text_width] in *; lia. Qed.
  Lemma size_cell_len k : count n k -> (List.length (fmt_dec (k - 2)) < text_width F)%nat.
  Proof.
    intros H. apply (count_max R) in H. destruct F; cbn [width text_width] in *.
    - pose proof (dec_len (k - 2) 10) as L. assert (k - 2 < 10 ^ N.of_nat 10) by (change (10 ^ N.of_nat 10) with 10000000000; change (2 ^ 32) with 4294967296 in H; lia). lia.
    - pose proof (dec_len (k - 2) 39) as L. assert (k - 2 < 10 ^ N.of_nat 39).
      { apply N.le_lt_trans with (2 ^ 128); [lia|reflexivity]. }
      lia.
  Qed.

  Lemma row_leads k label t (a : addr F) col : k = 1%nat \/ k = 8%nat -> Pf_Process.prints label -> Pf_Process.prints t ->
    leads (txt true (row_of k label t a col)) [liner label t a].
  Proof.
    intros Hk Hl Ht. rewrite row_true by exact Hk. unfold liner, lead. rewrite (app_assoc (fill 11 label)). apply leads_line.
    pose proof (prints_nl _ (prints_fill 11 label Hl)) as N1. pose proof (prints_nl _ (prints_fill (text_width F) t Ht)) as N2.
    pose proof (binary_nl F a) as N3. rewrite !in_app_iff. tauto.
  Qed.
  Lemma remark_leads s : Pf_Process.prints s -> leads (txt true [Frag White s; break]) [s].
  Proof. intros H. cbn [txt flat_map said break newline]. rewrite app_nil_r. apply leads_line, prints_nl, H. Qed.

  Lemma class_prints cl : class_of F n cl -> In (class_cell cl)
    [[]; lit "Class A"; lit "Class B"; lit "Class C"; lit "Class D (multicast)"; lit "Class E (reserved)"].
  Proof.
    intros H. destruct cl as [t|]; [|now left]. destruct F; cbn [class_of class_cell] in *; [|discriminate].
    rewrite <- (H (base_addr n) (wf_base n W) (member_base n)). unfold class_label.
    repeat match goal with |- context[if ?b then _ else _] => destruct b end; cbn [In]; tauto.
  Qed.
  Lemma prints_class cl : class_of F n cl -> Pf_Process.prints (class_cell cl).
  Proof.
    intros H. apply class_prints in H. cbn [In] in H. destruct H as [<-|[<-|[<-|[<-|[<-|[<-|[]]]]]]]; now apply printable_check.
  Qed.

  Lemma report_pieces a ho bc k cl : class_of F n cl -> pieces nl (txt true (report n a ho bc k cl)) = report_lines a ho bc k cl.
  Proof.
    intros Hcl. assert (P : forall s, forallb (Messages.between 32 126) s = true -> Pf_Process.prints s) by (intros; now apply printable_check).
    assert (H1 : leads (txt true (match a with
     | None => []
     | Some a => row_of 1 (lit "Address:") (display a) a (bit_colour a (subnet_mask n) false) ++
         row_of 8 (lit "Netmask:") mask_cell (subnet_mask n) (fun _ => Red) ++
         row_of 8 (lit "Wildcard:") (display (bitwise_negate (subnet_mask n))) (bitwise_negate (subnet_mask n)) (fun _ => Yellow) ++
         [Frag White (lit "=>"); break]
     end)) (match a with
     | Some a => [liner (lit "Address:") (display a) a; liner (lit "Netmask:") mask_cell (subnet_mask n);
                 liner (lit "Wildcard:") (display (bitwise_negate (subnet_mask n))) (bitwise_negate (subnet_mask n)); lit "=>"]
     | None => []
     end)).
    { destruct a as [a|]; [|exact leads_nil]. rewrite !txt_app.
      apply (leads_app _ [_] _ [_; _; _]); [apply row_leads; [now left|now apply P|apply prints_addr]|].
      apply (leads_app _ [_] _ [_; _]); [apply row_leads; [now right|now apply P|apply prints_mask]|].
      apply (leads_app _ [_] _ [_]); [apply row_leads; [now right|now apply P|apply prints_addr]|]. apply remark_leads. now apply P. }
    assert (H2 : leads (txt true (row_of 1 (lit "Network:") net_cell (base_addr n) (bit_colour (base_addr n) (subnet_mask n) true)))
      [liner (lit "Network:") net_cell (base_addr n)]).
    { apply row_leads; [now left|now apply P|apply prints_net_text]. }
    assert (H3 : leads (txt true (match ho with
       | Some (x, y) => row_of 8 (lit "HostMin:") (display x) x (fun _ => Yellow) ++ row_of 8 (lit "HostMax:") (display y) y (fun _ => Yellow)
       | None => [Frag White (lit "no hosts"); break]
       end)) (match ho with
       | Some (x, y) => [liner (lit "HostMin:") (display x) x; liner (lit "HostMax:") (display y) y]
       | None => [lit "no hosts"]
       end)).
    { destruct ho as [[x y]|]; [|apply remark_leads; now apply P]. rewrite txt_app.
      apply (leads_app _ [_] _ [_]); (apply row_leads; [now right|now apply P|apply prints_addr]). }
    assert (H4 : leads (txt true (match bc with
       | Some b => row_of 8 (lit "Broadcast:") (display b) b (fun _ => Yellow)
       | None => [Frag White (lit "no broadcast"); break]
       end)) (match bc with Some b => [liner (lit "Broadcast:") (display b) b] | None => [lit "no broadcast"] end)).
    { destruct bc as [b|]; [|apply remark_leads; now apply P]. apply row_leads; [now right|now apply P|apply prints_addr]. }
    pose proof (leads_app _ _ _ _ H1 (leads_app _ _ _ _ H2 (leads_app _ _ _ _ H3 H4))) as H. rewrite <- !txt_app in H.
    specialize (H (txt true (if 2 <? k then
       headings (F := F) (lit "Hosts/Net:") (fmt_dec (k - 2)) ++
       (match cl with Some t => [Frag Magenta t] | None => [] end) ++ [break]
     else [Frag White (lit "no hosts/net")]))). rewrite <- txt_app, <- !app_assoc in H.
    unfold report_lines. unfold report, masked_row, row. rewrite <- !app_assoc.
    etransitivity; [|etransitivity; [exact H|]].
    - f_equal. f_equal. unfold row_of. rewrite <- !app_assoc. destruct a; rewrite <- ?app_assoc; reflexivity.
    - do 4 f_equal. destruct (2 <? k).
      + replace (txt true (headings (F := F) (lit "Hosts/Net:") (fmt_dec (k - 2)) ++ (match cl with Some t => [Frag Magenta t] | None => [] end) ++ [break]))
          with ((lead F (lit "Hosts/Net:") (fmt_dec (k - 2)) ++ class_cell cl) ++ [nl]).
        * rewrite (pieces_cut nl _ []), pieces_whole; [reflexivity|].
          pose proof (prints_nl _ (prints_fill 11 (lit "Hosts/Net:") (P (lit "Hosts/Net:") eq_refl))) as N1. pose proof (prints_nl _ (prints_fill (text_width F) _ (prints_dec (k - 2)))) as N2.
          pose proof (prints_nl _ (prints_class cl Hcl)) as N3. unfold lead. rewrite !in_app_iff. tauto.
        * unfold lead. rewrite !txt_app. cbn [headings txt flat_map said break newline]. rewrite app_nil_r, <- !app_assoc. do 2 f_equal.
          destruct cl; cbn [class_cell txt flat_map said newline]; rewrite ?app_nil_r; reflexivity.
      + reflexivity.
  Qed.
End Report.

(** ** The table *)
Lemma short_not_tabular F l : (List.length l < line_width F)%nat -> tabular F l = false.
Proof. intros H. unfold tabular. destruct (Nat.eqb_spec (List.length l) (line_width F)); [lia|reflexivity]. Qed.
Lemma class_short t : In t [[]; lit "Class A"; lit "Class B"; lit "Class C"; lit "Class D (multicast)"; lit "Class E (reserved)"] -> (List.length t <= 19)%nat.
Proof. cbn [In]. intros [<-|[<-|[<-|[<-|[<-|[<-|[]]]]]]]; cbn; lia. Qed.
Lemma remark_short F t : In t remarks -> tabular F t = false.
Proof. unfold remarks. cbn [In]. intros [<-|[<-|[<-|[<-|[<-|[]]]]]]; destruct F; vm_compute; reflexivity. Qed.

Section Table.
  Context {R : Rust} (F : family) (n : net F).
  Hypothesis W : wf_net n.
  Variables (a : option (addr F)) (ho : option (addr F * addr F)) (bc : option (addr F)) (k : N) (cl : option str).
  Hypothesis Va : forall x, a = Some x -> valid x.
  Hypothesis Hk : count n k.
  Hypothesis Hh : host_range n ho.
  Hypothesis Hb : broadcast_of n bc.
  Hypothesis Hc : class_of F n cl.

  Lemma liner_tab label t (x : addr F) : (List.length label < 11)%nat -> (List.length t < text_width F)%nat -> tabular F (liner F label t x) = true.
  Proof. intros. now apply row_tabular. Qed.
  Lemma ho_valid x y : ho = Some (x, y) -> valid x /\ valid y.
  Proof. destruct Hh as (k' & _ & H). intros ->. destruct H as (_ & l & h & _ & _ & Vx & _ & _ & Vy & _). auto. Qed.
  Lemma bc_valid b : bc = Some b -> valid b.
  Proof. destruct Hb as (k' & _ & H). intros ->. apply H. Qed.

  (** Which of the lines are rows. *)
  Definition marks_of : list bool :=
    match a with Some _ => [true; true; true; false] | None => [] end ++ [true] ++
    match ho with Some _ => [true; true] | None => [false] end ++
    match bc with Some _ => [true] | None => [false] end ++
    if 2 <? k then [false; false] else [false].
  Lemma summary_line : 2 < k -> let l := lead F (lit "Hosts/Net:") (fmt_dec (k - 2)) ++ class_cell cl in
    tabular F l = false /\ summary F l.
  Proof.
    intros L l. pose proof (size_cell_len F n W k Hk) as S. assert (L10 : (List.length (lit "Hosts/Net:") < 11)%nat) by (cbn; lia).
    pose proof (lead_len F (lit "Hosts/Net:") (fmt_dec (k - 2)) L10 S) as E. pose proof (class_prints F n W cl Hc) as C. split.
    - apply short_not_tabular. unfold l. rewrite app_length, E. apply class_short in C.
      unfold line_width. assert (35 <= bits_width F)%nat by (destruct F; vm_compute; lia). lia.
    - split; [now apply lead_cells|]. split.
      + unfold l, lead. rewrite <- !app_assoc. change (fill 11 (lit "Hosts/Net:")) with (lit "Hosts/Net: "). reflexivity.
      + unfold l. rewrite skipn_app, E, Nat.sub_diag, skipn_all2 by (rewrite E; lia). exact C.
  Qed.
  Lemma lines_marked : Forall2 (fun l b => tabular F l = b /\ (b = false -> summary F l \/ In l remarks)) (report_lines F n a ho bc k cl) marks_of.
  Proof.
    assert (Rem : forall t, In t remarks -> tabular F t = false /\ (false = false -> summary F t \/ In t remarks)).
    { intros t Ht. split; [now apply remark_short|]. now right. }
    assert (Row : forall label t (x : addr F), (List.length label < 11)%nat -> (List.length t < text_width F)%nat ->
      tabular F (liner F label t x) = true /\ (true = false -> summary F (liner F label t x) \/ In (liner F label t x) remarks)).
    { intros. split; [now apply liner_tab|discriminate]. }
    pose proof ho_valid as HV. pose proof bc_valid as BV.
    unfold report_lines, marks_of. apply Forall2_app; [|apply Forall2_app; [|apply Forall2_app; [|apply Forall2_app]]].
    - destruct a as [x|]; [|constructor]. destruct (negate_value R F (subnet_mask n) (wf_mask n W)) as [Vm _].
      constructor; [apply Row; [cbn; lia|apply (addr_cell_len F n W), Va; reflexivity]|].
      constructor; [apply Row; [cbn; lia|now apply mask_cell_len]|].
      constructor; [apply Row; [cbn; lia|now apply (addr_cell_len F n W)]|].
      constructor; [|constructor]. apply Rem. unfold remarks. cbn [In]. tauto.
    - constructor; [|constructor]. apply Row; [cbn; lia|now apply net_cell_len].
    - destruct ho as [[x y]|].
      + destruct (HV x y eq_refl) as [Vx Vy]. constructor; [|constructor; [|constructor]]; (apply Row; [cbn; lia|now apply (addr_cell_len F n W)]).
      + constructor; [|constructor]. apply Rem. unfold remarks. cbn [In]. tauto.
    - destruct bc as [b|].
      + constructor; [|constructor]. apply Row; [cbn; lia|]. apply (addr_cell_len F n W). now apply BV.
      + constructor; [|constructor]. apply Rem. unfold remarks. cbn [In]. tauto.
    - destruct (N.ltb_spec 2 k) as [L|L].
      + constructor; [|constructor; [|constructor]].
        * destruct (summary_line L) as [S1 S2]. split; [exact S1|]. intros _. now left.
        * apply Rem. unfold remarks. cbn [In]. tauto.
      + constructor; [|constructor]. apply Rem. unfold remarks. cbn [In]. tauto.
  Qed.
  Lemma marks_count : List.length (filter (fun b => b) marks_of) = rows (match a with Some _ => true | None => false end) k.
  Proof.
    unfold marks_of, rows. destruct Hh as (k1 & C1 & H1). destruct Hb as (k2 & C2 & H2).
    pose proof (count_once n k1 k C1 Hk). pose proof (count_once n k2 k C2 Hk). subst k1 k2.
    assert (E1 : (4 <=? k) = match ho with Some _ => true | None => false end) by (destruct ho as [[x y]|]; [destruct H1 as [H1 _]|]; lia).
    assert (E2 : (2 <=? k) = match bc with Some _ => true | None => false end) by (destruct bc as [b|]; [destruct H2 as [H2 _]|]; lia).
    rewrite E1, E2. destruct a, ho as [[? ?]|], bc, (2 <? k); reflexivity.
  Qed.
End Table.
Lemma filter_marked {X} (f : X -> bool) (P : X -> Prop) l bs : Forall2 (fun x b => f x = b /\ (b = false -> P x)) l bs ->
  Forall (fun x => f x = true \/ P x) l /\ List.length (filter f l) = List.length (filter (fun b => b) bs).
Proof.
  intros H. induction H as [|x b l bs [E Hx] H [IH1 IH2]]; [split; [constructor|reflexivity]|]. split.
  - constructor; [|exact IH1]. destruct b; [now left|right; now apply Hx].
  - cbn [filter]. rewrite E. destruct b; cbn [List.length]; now rewrite IH2.
Qed.

Lemma c96_table : forall (R : Rust) (T : Terminal) (F : family) (n : net F) (a : option (addr F)) (k : N) (es : list event) (r : res unit),
  wf_net n -> (forall x, a = Some x -> valid x) -> count n k ->
  colors_enabled = true -> show_of F n a = (es, r) ->
  let ls := pieces "010" (stdout es) in
  Forall (fun l => tabular F l = true \/ summary F l \/ In l remarks) ls /\
  List.length (filter (tabular F) ls) = rows (match a with Some _ => true | None => false end) k.
Proof.
  intros R T F n a k es r W Va Hk Hc E. destruct (c56_report R F n a W Va) as (ho & bc & k' & cl & Hh & Hb & Hk' & Hcl & E').
  pose proof (count_once n k' k Hk' Hk) as ->. specialize (E' T). rewrite E' in E. injection E as <- _. rewrite Hc.
  cbn zeta. rewrite txt_stdout, report_pieces by assumption.
  destruct (filter_marked _ _ _ _ (lines_marked F n W a ho bc k cl Va Hk Hh Hb Hcl)) as [H1 H2]. split; [exact H1|].
  unfold str in *. rewrite H2. eapply marks_count; eassumption.
Qed.

(** ** Widths *)
Definition fine (w : nat) (ms : list mark) : Prop := forall c, fits w (txt c ms).
(** Marks that are narrow by themselves: enough without colours. *)
Definition narrow (w : nat) (m : mark) : Prop :=
  match m with Frag _ s => (List.length s <= w)%nat | Plain s => exists t, s = t ++ newline /\ (List.length t <= w)%nat | Problem _ => True end.
Lemma narrow_fits w ms : Forall (narrow w) ms -> fits w (txt false ms).
Proof.
  intros H. induction H as [|m ms Hm H IH]; [apply fits_short; cbn; lia|]. cbn [txt flat_map]. fold (txt false ms). destruct m as [c s|s|e]; cbn [narrow said] in *.
  - unfold newline. rewrite <- app_assoc. cbn [app]. apply fits_cut. split; [now apply fits_short|exact IH].
  - destruct Hm as (t & -> & L). unfold newline. rewrite <- app_assoc. cbn [app]. apply fits_cut. split; [now apply fits_short|exact IH].
  - exact IH.
Qed.
Lemma fine_nil w : fine w [].
Proof. intros c. apply fits_short. cbn. lia. Qed.
Lemma fine_says w t ms : (List.length t <= w)%nat -> fine w ms -> fine w (says t :: ms).
Proof.
  intros L H c. cbn [txt flat_map says said]. fold (txt c ms). unfold newline. rewrite <- app_assoc. cbn [app]. apply fits_cut. split; [now apply fits_short|apply H].
Qed.
Lemma fine_break w ms ms' : fine w ms -> fine w ms' -> fine w (ms ++ break :: ms').
Proof. intros H H' c. rewrite txt_app. cbn [txt flat_map break said newline app]. apply fits_cut. split; [apply H|apply H']. Qed.
Lemma fine_problem w e : fine w [Problem e].
Proof. intros c. apply fits_short. cbn. lia. Qed.
Lemma fine_mono w w' ms : (w <= w')%nat -> fine w ms -> fine w' ms.
Proof. intros L H c. exact (fits_mono w w' _ L (H c)). Qed.
Lemma fine_all_says w ts : Forall (fun t : str => (List.length t <= w)%nat) ts -> fine w (map says ts).
Proof. intros H. induction H as [|t ts Ht H IH]; [apply fine_nil|]. now apply fine_says. Qed.
(** Lines, then more. *)
Inductive lined (w : nat) : list mark -> Prop :=
| lined_nil : lined w []
| lined_says t ms : (List.length t <= w)%nat -> lined w ms -> lined w (says t :: ms)
| lined_block b ms : fine w b -> lined w ms -> lined w (b ++ break :: ms).
Lemma lined_fine w ms ms' : lined w ms -> fine w ms' -> fine w (ms ++ ms').
Proof.
  intros H H'. induction H as [|t ms L H IH|b ms Hb H IH]; [exact H'|now apply fine_says|]. rewrite <- app_assoc. cbn [app]. now apply fine_break.
Qed.
Lemma lined_app w ms ms' : lined w ms -> lined w ms' -> lined w (ms ++ ms').
Proof.
  intros H H'. induction H as [|t ms L H IH|b ms Hb H IH]; [exact H'|now apply lined_says|]. rewrite <- app_assoc. cbn [app]. now apply lined_block.
Qed.

Lemma narrow_column F w k (a : addr F) col : (k <= w)%nat -> (1 <= w)%nat -> Forall (narrow w) (column k a col).
Proof.
  intros L L1. unfold column. apply Forall_forall. intros m Hm. apply in_flat_map in Hm. destruct Hm as (i & _ & [<-|Hm]).
  - cbn [narrow]. rewrite map_length, firstn_length. lia.
  - destruct (_ && _); [|destruct Hm]. destruct Hm as [<-|[]]. cbn. lia.
Qed.
Lemma narrow_row F w k label t (a : addr F) col : (k = 1 \/ k = 8)%nat -> (List.length label <= 11)%nat -> (List.length t <= text_width F)%nat ->
  (text_width F <= w)%nat -> Forall (narrow w) (row_of k label t a col).
Proof.
  intros Hk Hl Ht Hw. assert (21 <= text_width F)%nat by (destruct F; cbn; lia). unfold row_of. apply Forall_app. split; [|apply Forall_app; split].
  - repeat constructor; cbn [narrow]; rewrite fill_len; lia.
  - apply narrow_column; lia.
  - constructor; [|constructor]. exists []. split; [reflexivity|cbn; lia].
Qed.
Lemma line_width_eq F : line_width F = match F with V4 => 67 | V6 => 192 end%nat.
Proof. destruct F; reflexivity. Qed.

Lemma fine_report (R : Rust) F (n : net F) a ms : wf_net n -> (forall x, a = Some x -> valid x) -> described n a ms -> fine (line_width F) ms.
Proof.
  intros W Va (ho & bc & k & cl & Hh & Hb & Hk & Hc & ->) c.
  assert (Bw : (35 <= bits_width F)%nat) by (destruct F; vm_compute; lia). destruct c.
  - unfold fits. rewrite report_pieces by assumption.
    destruct (filter_marked _ _ _ _ (lines_marked F n W a ho bc k cl Va Hk Hh Hb Hc)) as [H1 _]. eapply Forall_impl; [|exact H1].
    intros l [H|[(_ & _ & H)|H]]; cbn beta in *.
    + unfold tabular in H. apply andb_prop in H. destruct H as [H _]. apply andb_prop in H. destruct H as [H _]. apply Nat.eqb_eq in H. lia.
    + apply class_short in H. rewrite skipn_length in H. unfold line_width. unfold str in *. lia.
    + unfold line_width. enough (List.length l <= 12)%nat by lia. unfold remarks in H. cbn [In] in H. destruct H as [<-|[<-|[<-|[<-|[<-|[]]]]]]; cbn; lia.
  - apply narrow_fits.
    assert (Tw : (text_width F <= line_width F)%nat) by (unfold line_width; lia). assert (Lw : (67 <= line_width F)%nat) by (rewrite line_width_eq; destruct F; lia).
    assert (Rem : forall s, (List.length s <= 67)%nat -> Forall (narrow (line_width F)) [Frag White s; break]).
    { intros s Hs. constructor; [cbn [narrow]; lia|]. constructor; [|constructor]. exists []. split; [reflexivity|cbn; lia]. }
    pose proof (fun x V => Nat.lt_le_incl _ _ (addr_cell_len F n W x V)) as La.
    pose proof (Nat.lt_le_incl _ _ (mask_cell_len F n W)) as Lm. pose proof (Nat.lt_le_incl _ _ (net_cell_len F n W)) as Ln.
    assert (Row : forall k label t (x : addr F) col, (k = 1 \/ k = 8)%nat -> (List.length label <= 11)%nat -> (List.length t <= text_width F)%nat ->
      Forall (narrow (line_width F)) (row_of k label t x col)) by (intros; now apply narrow_row).
    unfold report. apply Forall_app; split; [|apply Forall_app; split; [|apply Forall_app; split; [|apply Forall_app; split]]].
    + destruct a as [x|]; [|constructor]. destruct (negate_value R F (subnet_mask n) (wf_mask n W)) as [Vm _].
      apply Forall_app; split; [|apply Forall_app; split; [|apply Forall_app; split]].
      * apply (Row 1%nat); [now left|cbn; lia|apply La, Va; reflexivity].
      * apply (Row 8%nat); [now right|cbn; lia|exact Lm].
      * apply (Row 8%nat); [now right|cbn; lia|now apply La].
      * apply Rem. cbn. lia.
    + apply (Row 1%nat); [now left|cbn; lia|exact Ln].
    + destruct ho as [[x y]|]; [|apply Rem; cbn; lia]. destruct (ho_valid F n (Some (x, y)) Hh x y eq_refl) as [Vx Vy].
      apply Forall_app; split; (apply (Row 8%nat); [now right|cbn; lia|now apply La]).
    + destruct bc as [b|]; [|apply Rem; cbn; lia]. pose proof (bc_valid F n (Some b) Hb b eq_refl) as Vb.
      apply (Row 8%nat); [now right|cbn; lia|now apply La].
    + destruct (2 <? k); [|constructor; [cbn; lia|constructor]]. apply Forall_app; split; [|apply Forall_app; split].
      * pose proof (size_cell_len F n W k Hk) as Sl. apply Forall_cons; [cbn [narrow]; rewrite fill_len; cbn; lia|]. apply Forall_cons; [cbn [narrow]; rewrite fill_len; lia|]. constructor.
      * pose proof (class_prints F n W cl Hc) as C. apply class_short in C. destruct cl as [t|]; [|constructor]. constructor; [|constructor]. cbn [narrow class_cell] in *. lia.
      * constructor; [|constructor]. exists []. split; [reflexivity|cbn; lia].
Qed.

(** ** Runs *)
Lemma fine_spaced w mss : Forall (fine w) mss -> fine w (spaced mss).
Proof.
  intros H. induction H as [|b mss Hb H IH]; [apply fine_nil|]. cbn [spaced]. destruct mss as [|b' mss]; [now rewrite app_nil_r|]. now apply fine_break.
Qed.
Lemma fine_list w ms : Forall (fun m => (exists t, m = says t /\ (List.length t <= w)%nat) \/ exists e, m = Problem e) ms -> fine w ms.
Proof.
  intros H. induction H as [|m ms [(t & -> & L)|(e & ->)] H IH]; [apply fine_nil|now apply fine_says|exact IH].
Qed.
Lemma lined_blocks {X} w (g : X * list mark -> str) l :
  Forall (fun tm => (List.length (g tm) <= w)%nat /\ fine w (snd tm)) l -> lined w (flat_map (fun tm => says (g tm) :: snd tm ++ [break]) l).
Proof.
  intros H. induction H as [|tm l [L Hf] H IH]; [constructor|]. cbn [flat_map app]. rewrite <- app_assoc. cbn [app]. now apply lined_says, lined_block.
Qed.
Lemma fine_depicted (R : Rust) F w (n : net F) a ms : (line_width F <= w)%nat -> wf_net n -> (forall x, a = Some x -> valid x) -> depicted n a ms -> fine w ms.
Proof. intros L W Va D. apply (fine_mono (line_width F)); [exact L|]. apply (depicted_described R) in D; [|assumption..]. now apply (fine_report R F n a). Qed.
Lemma fine_depicteds (R : Rust) F w (r : list (net F)) mss : (line_width F <= w)%nat -> Forall wf_net r ->
  Forall2 (fun e ms => depicted e None ms) r mss -> Forall (fine w) mss.
Proof.
  intros L W H. induction H as [|e ms r mss D H IH]; [constructor|]. inversion W; subst. constructor; [|now apply IH].
  apply (fine_depicted R F w e None); try assumption. discriminate.
Qed.
Lemma net_line F w (n : net F) t : (line_width F <= w)%nat -> wf_net n -> net_spelled n t -> (List.length t <= w)%nat.
Proof.
  intros L W H. apply net_len in H; [|exact W]. rewrite line_width_eq in L.
  destruct F; destruct (cidr_prefix n); cbn [longest longest_prefix] in H; lia.
Qed.
Lemma nets_lines F w (r : list (net F)) ts : (line_width F <= w)%nat -> Forall wf_net r -> Forall2 net_spelled r ts -> fine w (map says ts).
Proof.
  intros L W H. apply fine_all_says. induction H as [|n t r ts Ht H IH]; [constructor|]. inversion W; subst. constructor; [now apply (net_line F w n)|now apply IH].
Qed.
Lemma dec39 x : x <= 2 ^ 128 -> (List.length (fmt_dec x) <= 39)%nat.
Proof. intros H. apply dec_len; [|lia]. apply N.le_lt_trans with (2 ^ 128); [exact H|reflexivity]. Qed.
Lemma width_128 F : 2 ^ width F <= 2 ^ 128.
Proof. destruct F; apply N.pow_le_mono_r; cbn [width]; lia. Qed.
Lemma sorted_nodup (l : list N) : StronglySorted N.lt l -> NoDup l.
Proof.
  intros H. induction H as [|x l H IH Hx]; constructor; [|exact IH]. intros I. rewrite Forall_forall in Hx. specialize (Hx x I). lia.
Qed.
Lemma resized_len (R : Rust) F (n : net F) m r o : resized n m r o -> N.of_nat (List.length r) <= 2 ^ width F.
Proof.
  intros (_ & H & C). destruct o.
  1, 2: (destruct C as (e & -> & _); cbn [List.length]; pose proof (pow2_pos (width F)); lia).
  destruct C as [_ C]. rewrite <- (map_length (fun e : net F => value (base_addr e))). apply NoDup_bound.
  - apply sorted_nodup. clear H. induction C as [|x l C IH Hx]; cbn [map]; constructor; [exact IH|]. apply Forall_map. exact Hx.
  - intros x Hx. apply in_map_iff in Hx. destruct Hx as (e & <- & He). rewrite Forall_forall in H. apply value_lt, wf_base, H, He.
Qed.
Lemma resize_lined (R : Rust) F w (n : net F) m r o first mss ms : (line_width F <= w)%nat -> wf_net n ->
  resized n m r o -> depicted n None first -> Forall2 (fun e ms => depicted e None ms) r mss -> resize_page first o mss ms -> lined w ms.
Proof.
  intros L W Hr Df Dm (ts & Ht & ->). pose proof (resized_len R F n m r o Hr) as B. pose proof (width_128 F) as B'.
  assert (L67 : (67 <= w)%nat) by (rewrite line_width_eq in L; destruct F; lia).
  apply lined_says; [cbn; lia|]. apply lined_block; [apply (fine_depicted R F w n None); [assumption..|discriminate|exact Df]|].
  apply (lined_blocks w (fun tm => match o with Lt => lit "Supernet:" | Eq => lit "Same-sized net:" | Gt => lit "Subnet " ++ fst tm ++ lit ":" end)).
  pose proof (fine_depicteds R F w r mss L (wf_resized n m r o Hr) Dm) as Hf. pose proof (Forall2_len _ _ _ Dm) as Lm.
  apply Forall_forall. intros [t b] I. cbn [fst snd]. pose proof (in_combine_l _ _ _ _ I) as It. apply in_combine_r in I. rewrite Forall_forall in Hf. split; [|now apply Hf].
  apply (usual_decs N.of_nat) in Ht. subst ts. apply in_map_iff in It. destruct It as (j & <- & Hj). apply in_seq in Hj.
  assert (N.of_nat j <= 2 ^ 128) as Lj by lia. apply dec39 in Lj. destruct o; [cbn; lia..|]. rewrite !app_length. cbn [List.length lit list_ascii_of_string]. lia.
Qed.
Lemma split_lined (R : Rust) F w (n : net F) cs r first mss ms : (line_width F <= w)%nat -> wf_net n ->
  Forall2 (fun c (m : net F) => piece c <= width F /\ is_cidr m (width F - piece c)) cs r ->
  depicted n None first -> Forall2 (fun e ms => depicted e None ms) r mss -> split_page first cs mss ms -> lined w ms.
Proof.
  intros L W Hr Df Dm (ts & Ht & ->). pose proof (width_128 F) as B'.
  assert (L67 : (67 <= w)%nat) by (rewrite line_width_eq in L; destruct F; lia).
  apply lined_says; [cbn; lia|]. apply lined_block; [apply (fine_depicted R F w n None); [assumption..|discriminate|exact Df]|].
  apply (lined_blocks w (fun tm => lit "Subnet for " ++ fst tm ++ lit " hosts:")).
  assert (Wr : Forall wf_net r) by (clear -Hr; induction Hr as [|c m cs r (_ & Hm & _) H IH]; constructor; assumption).
  pose proof (fine_depicteds R F w r mss L Wr Dm) as Hf.
  apply Forall_forall. intros [t b] I. cbn [fst snd]. pose proof (in_combine_l _ _ _ _ I) as It. apply in_combine_r in I. rewrite Forall_forall in Hf. split; [|now apply Hf].
  apply (usual_decs Z.to_N) in Ht. subst ts. apply in_map_iff in It. destruct It as (c & <- & Hc).
  assert (Pc : piece c <= width F). { clear -Hr Hc. induction Hr as [|x m cs r (P & _) H IH]; [destruct Hc|]. destruct Hc as [->|Hc]; [exact P|now apply IH]. }
  apply piece_spec in Pc. assert (Z.to_N c <= 2 ^ 128) as Lc by (clear -Pc B'; lia).
  apply dec39 in Lc. rewrite !app_length. cbn [List.length lit list_ascii_of_string]. lia.
Qed.

Definition families_below (w : nat) (ss : list str) : Prop :=
  forall F s, In s ss -> of_family F s \/ (exists a, address_text F s a) -> (line_width F <= w)%nat.
Lemma below_means w ss F s (a : addr F) n : families_below w ss -> In s ss -> means F s a n -> (line_width F <= w)%nat.
Proof. intros H I M. apply (H F s I). left. now exists a, n. Qed.

Lemma duty_fits (R : Rust) bits args ms z w c : (67 <= w)%nat -> families_below w (tl args) ->
  c = false \/ (forall prog rest, args <> prog :: lit "--color-test" :: rest) -> duty bits args ms z -> fits w (txt c ms).
Proof.
  intros L67 B Hc D.
  destruct D as [args La|prog w' rest Hm|prog rest|prog rest|prog ss mss Hn H|prog pre s post e Hn Hp He|prog w' ss mss z Hw Hne H Hz
    |F prog w' ss l r ts Hw Hne H Hm Ht|F prog w' pre s post e Hw Hp He|F G prog w' pre s post Hw Hne Hp Hs Hg
    |F prog w' s t a b r ts Hw Ha Hb Hn Hr Ht|prog w' s t e Hw He|F prog w' s t a e Hw Ha He|F G prog w' s t a b Hw Ha Hb Hg
    |F prog w' s t a n m r o first mss ms Hw M Hm Hr Df Dm P|prog w' s t e Hw He|F prog w' s t a n e Hw M He|F prog w' s t a n p Hw M Hp Hb|F G prog w' s t a n m Hw M Hm Hg
    |F prog w' s ss a n cs r h us first mss ms ts Hw M Hcs Hp Hi Hh y Hy Hr Df Dm P Ht
    |F prog w' s ss a n cs r first mss ms Hw M Hcs Hp Hl Hi Df Dm P|F prog w' s ss a n cs first ms Hw M Hcs Hl Df P
    |prog w' s ss cs e Hw Hcs He|prog w' s pre cs t post Hw Hpre Hnn Ht|prog w' s pre cs t cc post Hw Hpre Hnn Ht Hneg]; cbn [tl] in *;
    try apply fine_problem.
  - (* colour test *) destruct Hc as [->|Hc]; [|now destruct (Hc prog rest)]. apply narrow_fits. apply Forall_map.
    unfold palette. repeat (apply Forall_cons; [vm_compute; lia|]). constructor.
  - (* show *) apply fine_spaced. clear Hn Hc. induction H as [|s ms ss mss (F & a & n & M & Dp) H IH]; [constructor|]. constructor.
    + destruct (means_wf R F s a n M) as [Va Wn]. apply (fine_depicted R F w n (Some a)); [|exact Wn|now intros x [= <-]|exact Dp].
      exact (below_means w _ F s a n B (or_introl eq_refl) M).
    + apply IH. intros F' s' Hs'. apply B. now right.
  - (* enumerate *) apply fine_list. assert (B0 : families_below w ss) by (intros F' s' Hs'; apply B; now right).
    clear -B0 H. apply Forall_concat. induction H as [|s ms ss mss Hs H IH]; [constructor|]. constructor.
    + destruct Hs as [(F & a & n & l & M & Hl & Hx)|(e & _ & ->)]; [|constructor; [right; now eexists|constructor]].
      pose proof (below_means w _ F s a n B0 (or_introl eq_refl) M) as L. clear -L Hx. induction Hx as [|x m l ms (t & Ht & ->) Hx IH]; constructor; [|exact IH].
      left. exists t. split; [reflexivity|]. apply spelled_len in Ht. rewrite line_width_eq in L. destruct F; cbn [longest] in Ht; lia.
    + apply IH. intros F' s' Hs'. apply B0. now right.
  - (* minimize *) pose proof (specs_wf R F ss l H) as Wl. apply (c78_exact R F l r Wl) in Hm.
    destruct (c40_returns R F l Wl) as (r1 & E1 & Wr). assert (r1 = r) as -> by congruence.
    apply (nets_lines F w r ts); try assumption. destruct H as [|s n ss l (a & M) H]; [now destruct Hne|].
    exact (below_means w _ F s a n B (or_intror (or_introl eq_refl)) M).
  - (* derange *) apply (nets_lines F w r ts); [|apply wf_cidrs, Hr|exact Ht]. apply (B F s); [now right; left|]. right. now exists a.
  - (* resize *) destruct (means_wf R F s a n M) as [_ Wn]. rewrite <- (app_nil_r ms). apply lined_fine; [|apply fine_nil].
    apply (resize_lined R F w n m r o first mss); try assumption. exact (below_means w _ F s a n B (or_intror (or_introl eq_refl)) M).
  - (* split *) destruct (means_wf R F s a n M) as [_ Wn]. pose proof (below_means w _ F s a n B (or_intror (or_introl eq_refl)) M) as L.
    apply lined_fine; [apply (split_lined R F w n cs r first mss); try assumption; apply Hp|]. apply fine_says; [cbn; lia|].
    apply (nets_lines F w us ts); [exact L|apply wf_cidrs, Hr|exact Ht].
  - destruct (means_wf R F s a n M) as [_ Wn]. pose proof (below_means w _ F s a n B (or_intror (or_introl eq_refl)) M) as L.
    apply lined_fine; [apply (split_lined R F w n cs r first mss); try assumption; apply Hp|]. apply fine_says; [cbn; lia|apply fine_nil].
  - destruct (means_wf R F s a n M) as [_ Wn]. pose proof (below_means w _ F s a n B (or_intror (or_introl eq_refl)) M) as L.
    apply lined_fine; [apply (split_lined R F w n [] [] first []); try assumption; constructor|]. apply fine_says; [cbn; lia|apply fine_nil].
Qed.

Lemma fate_fits (R : Rust) bits checked args ms f w c : (67 <= w)%nat -> families_below w (tl args) ->
  c = false \/ (forall prog rest, args <> prog :: lit "--color-test" :: rest) -> fate bits checked args ms f -> fits w (txt c ms).
Proof.
  intros L67 B Hc D. destruct D as [args ms z D| | |F prog w' s ss a n cs r h first mss ms Hw M Hcs Hp Hi Hh Hy Df Dm P].
  - now apply (duty_fits R bits args ms z).
  - apply fine_nil.
  - apply fine_nil.
  - destruct (means_wf R F s a n M) as [_ Wn]. pose proof (below_means w _ F s a n B (or_intror (or_introl eq_refl)) M) as L.
    apply lined_fine; [apply (split_lined R F w n cs r first mss); try assumption; apply Hp|]. apply fine_says; [cbn; lia|apply fine_nil].
Qed.

Lemma family_colon F s : of_family F s \/ (exists a, address_text F s a) -> ~ In ":"%char s -> F = V4.
Proof.
  intros H N. destruct F; [reflexivity|exfalso]. destruct H as [(a & n & A & w & M & mask & -> & (Hne & _) & Hr & _)|(a & Hne & Hr)].
  - apply reads6_chars in Hr; [|exact Hne]. apply N. unfold spec_text. apply in_or_app. left. apply Hr.
  - apply reads6_chars in Hr; [|exact Hne]. apply N, Hr.
Qed.
Lemma drawn_txt c ms : map fst (flat_map drawn_event (map (paint c) ms)) = txt c ms.
Proof.
  induction ms as [|m ms IH]; [reflexivity|]. cbn [txt flat_map map]. fold (txt c ms). rewrite map_app, IH. f_equal.
  destruct m; cbn [said paint]; [|cbn [drawn_event]; rewrite map_map; apply map_id|reflexivity].
  destruct c; [|unfold line]; cbn [drawn_event]; rewrite map_map; apply map_id.
Qed.

Lemma c96_fits : forall (U : Unicode) (R : Rust) (T : Terminal) (args : list str) (l : list (ascii * pen)) (p : pen),
  seen (on_stdout (main args)) = Some (l, p) ->
  colors_enabled = false \/ (forall prog rest, args <> prog :: lit "--color-test" :: rest) ->
  fits 192 (map fst l) /\ (Forall (fun s => ~ In ":"%char s) (tl args) -> fits 67 (map fst l)).
Proof.
  intros U R T args l p Hs Hc. destruct (unicode_args_dec args) as [Ha|Ha].
  2: { rewrite main_panic in Hs by exact Ha. injection Hs as <- _. split; [|intros _]; apply fits_short; cbn; lia. }
  destruct (fate_all R args) as (ms & r & D & H). rewrite main_run in Hs by exact Ha. cbn [on_stdout] in Hs.
  pose proof (neat_do_main R T args Ha) as Hn. unfold neat in Hn. rewrite (D T) in *. cbn [fst] in *. rewrite seen_events in Hs by exact Hn.
  injection Hs as <- _. rewrite drawn_txt. split; [|intros Hcol]; apply (fate_fits R _ _ args ms _ _ _) with (4 := H); try assumption; try lia.
  - intros F s _ _. rewrite line_width_eq. destruct F; lia.
  - intros F s I Hf. rewrite Forall_forall in Hcol. rewrite (family_colon F s Hf (Hcol s I)). rewrite line_width_eq. lia.
Qed.
