(** * Pf_Amount: proofs for P_Amount *)
From Verif Require Import RustBase Addr BitManip Cidr Net Parse Derange Minimize Split Resize Console ShowNet Main Messages Process.
From Verif Require Import SpecIO SpecMessages SpecFate SpecAmount Bits Laws NetFacts SetFacts Family Order TextFacts Utf8Facts SplitFacts MinimizeFacts.
From Verif Require Import Pf_Text Pf_Net Pf_Netspec Pf_Minimize Pf_Derange Pf_Resize Pf_Join Pf_Split Pf_Show Pf_Main Pf_Compose Pf_Process Pf_Runs Pf_Messages Pf_Crash Pf_Cost Pf_Count Pf_Told Pf_Whole Pf_Fate Demo.
From Coq Require Import ZifyBool ZifyNat ZifyN.
Ltac Zify.zify_post_hook ::= idtac.

(** ** Counting line breaks *)
Lemma ends_app s t : line_ends (s ++ t) = line_ends s + line_ends t.
Proof. unfold line_ends. rewrite filter_app, app_length. apply Nat2N.inj_add. Qed.
Lemma ends_none s : ~ In nl s -> line_ends s = 0.
Proof.
  unfold line_ends. induction s as [|x s IH]; intros H; [reflexivity|]. cbn [filter In] in *.
  destruct (Ascii.eqb_spec nl x) as [<-|]; [tauto|]. apply IH. tauto.
Qed.
Lemma ends_prints s : Pf_Process.prints s -> line_ends s = 0.
Proof. intros H. now apply ends_none, prints_nl. Qed.
Lemma ends_cons x s : line_ends (x :: s) = line_ends [x] + line_ends s.
Proof. apply (ends_app [x] s). Qed.

Definition amount (c : bool) (ms : list mark) : N := line_ends (txt c ms).
Lemma amount_app c ms ms' : amount c (ms ++ ms') = amount c ms + amount c ms'.
Proof. unfold amount. rewrite txt_app. apply ends_app. Qed.
Lemma amount_cons c m ms : amount c (m :: ms) = amount c [m] + amount c ms.
Proof. apply (amount_app c [m] ms). Qed.
Lemma amount_frag c col s : Pf_Process.prints s -> amount c [Frag col s] = if c then 0 else 1.
Proof.
  intros H. unfold amount. cbn [txt flat_map said]. rewrite app_nil_r. destruct c; [now apply ends_prints|].
  rewrite ends_app, ends_prints by exact H. reflexivity.
Qed.
Lemma amount_says c s : Pf_Process.prints s -> amount c [says s] = 1.
Proof. intros H. unfold amount. cbn [txt flat_map says said]. rewrite app_nil_r, ends_app, ends_prints by exact H. reflexivity. Qed.
Lemma amount_break c : amount c [break] = 1.
Proof. reflexivity. Qed.
Lemma amount_lines {X} c (f : X -> str) l : (forall x, Pf_Process.prints (f x)) -> amount c (map (fun x => says (f x)) l) = N.of_nat (List.length l).
Proof.
  intros H. induction l as [|x l IH]; [reflexivity|]. cbn [map List.length]. rewrite amount_cons, IH, amount_says by apply H. lia.
Qed.

(** What the process writes. *)
Lemma styled_ends c s : line_ends (styled_text c s) = line_ends s.
Proof.
  assert (E : forall c, exists l, styled_text c s = l ++ s ++ escape :: lit "[0m" /\ line_ends l = 0).
  { clear. intros c. destruct c; eexists; (split; [reflexivity|vm_compute; reflexivity]). }
  destruct (E c) as (l & -> & El). rewrite !ends_app, El. change (line_ends (escape :: lit "[0m")) with 0. lia.
Qed.
Lemma bytes_ends c ms : line_ends (flat_map to_stdout (map (paint c) ms)) = amount c ms.
Proof.
  induction ms as [|m ms IH]; [reflexivity|]. cbn [map flat_map]. rewrite ends_app, IH, (amount_cons c m ms). f_equal.
  destruct m as [col s|s|e]; unfold amount; cbn [paint txt flat_map said]; rewrite ?app_nil_r; [|reflexivity..].
  destruct c; [apply styled_ends|reflexivity].
Qed.
Lemma stdout_ends (U : Unicode) (R : Rust) (T : Terminal) args ms r : Forall unicode args -> runs args ms r ->
  line_ends (on_stdout (main args)) = amount colors_enabled ms.
Proof. intros Ha H. rewrite main_run by exact Ha. cbn [on_stdout]. rewrite (H T). cbn [fst]. apply bytes_ends. Qed.
Lemma does_runs (R : Rust) args ms z : does args ms z -> runs args ms (Ret z).
Proof. intros H. exact H. Qed.

(** ** Descriptions *)
Lemma nice_amount ms : Forall nice ms -> amount false ms = N.of_nat (List.length ms).
Proof.
  intros H. induction H as [|m ms Hm H IH]; [reflexivity|]. rewrite amount_cons, IH. cbn [List.length].
  destruct m as [c s| |]; try contradiction. unfold amount. cbn [txt flat_map said nice] in *. rewrite app_nil_r, ends_app, ends_none by exact Hm.
  change (line_ends newline) with 1. lia.
Qed.
Lemma column_count F k (a : addr F) col : k = 1 \/ k = 8 ->
  N.of_nat (List.length (column (N.to_nat k) a col)) = width F / k + (width F / N.of_nat (group_size F) - 1).
Proof.
  intros Hk. unfold column. set (f := fun i => Frag _ _ :: _).
  assert (E : List.length (flat_map f (seq 0 (N.to_nat (width F) / N.to_nat k))) =
    fold_right Nat.add 0%nat (map (fun i => if Nat.eqb ((S i * N.to_nat k) mod group_size F) 0 && Nat.ltb (S i * N.to_nat k) (N.to_nat (width F)) then 2 else 1)%nat
      (seq 0 (N.to_nat (width F) / N.to_nat k)))).
  { induction (seq 0 (N.to_nat (width F) / N.to_nat k)) as [|i l IH]; [reflexivity|]. cbn [flat_map map fold_right]. rewrite app_length, IH. f_equal.
    unfold f. cbn [List.length]. destruct (_ && _); reflexivity. }
  rewrite E. clear -Hk. destruct Hk as [->| ->], F; vm_compute; reflexivity.
Qed.
Lemma row_amount F c k label t (a : addr F) col : k = 1 \/ k = 8 -> Pf_Process.prints label -> Pf_Process.prints t ->
  amount c (row_of (N.to_nat k) label t a col) = row_lines c F k.
Proof.
  intros Hk Hl Ht. destruct c.
  - unfold amount. rewrite row_true by (destruct Hk as [->| ->]; [now left|now right]). rewrite !ends_app.
    rewrite (ends_prints _ (prints_fill 11 label Hl)), (ends_prints _ (prints_fill (text_width F) t Ht)), (ends_none _ (binary_nl F a)). reflexivity.
  - unfold row_of, headings. rewrite !amount_app, amount_cons, !amount_frag by now apply prints_fill.
    rewrite nice_amount by apply nice_column. rewrite column_count by exact Hk. rewrite amount_break. unfold row_lines. lia.
Qed.
Lemma remark_amount c s : Pf_Process.prints s -> amount c [Frag White s; break] = remark_lines c.
Proof. intros H. rewrite amount_cons, amount_frag by exact H. rewrite amount_break. destruct c; reflexivity. Qed.

Lemma class_text (R : Rust) F (n : net F) t : wf_net n -> class_of F n (Some t) -> Pf_Process.prints t.
Proof.
  intros W H. destruct F; cbn [class_of] in H; [|discriminate].
  rewrite <- (H (base_addr n) (wf_base n W) (member_base n)). unfold class_label.
  repeat match goal with |- context[if ?b then _ else _] => destruct b end; now apply printable_check.
Qed.
Lemma described_amount (R : Rust) F c (n : net F) a ms k cl : wf_net n -> described n a ms -> count n k -> class_of F n cl ->
  amount c ms = height c F (has a) k (has cl).
Proof.
  intros W (ho & bc & k' & cl' & (k1 & C1 & Hh) & (k2 & C2 & Hb) & Hk' & Hcl' & ->) Hk Hcl.
  pose proof (count_once n k1 k C1 Hk). pose proof (count_once n k2 k C2 Hk). pose proof (count_once n k' k Hk' Hk). subst k1 k2 k'.
  assert (P : forall s, forallb (Messages.between 32 126) s = true -> Pf_Process.prints s) by (intros; now apply printable_check).
  assert (E1 : (4 <=? k) = has ho) by (destruct ho as [[x y]|]; [destruct Hh as [Hh _]|]; cbn [has]; lia).
  assert (E2 : (2 <=? k) = has bc) by (destruct bc as [b|]; [destruct Hb as [Hb _]|]; cbn [has]; lia).
  assert (E3 : has cl' = has cl).
  { destruct F; cbn [class_of] in Hcl, Hcl'; [|now subst]. destruct cl as [t|], cl' as [t'|]; try reflexivity; [now destruct (Hcl' t)|now destruct (Hcl t')]. }
  assert (Rw8 : forall label t (x : addr F) col, forallb (Messages.between 32 126) label = true -> Pf_Process.prints t -> amount c (row label t x col) = row_lines c F 8)
    by (intros; apply (row_amount F c 8); auto).
  assert (Rw1 : forall label t (x m : addr F) b, forallb (Messages.between 32 126) label = true -> Pf_Process.prints t -> amount c (masked_row label t x m b) = row_lines c F 1)
    by (intros; apply (row_amount F c 1); auto).
  unfold report, height. rewrite E1, E2, (amount_app c (match a with Some _ => _ | None => _ end)), (amount_app c (masked_row _ _ _ _ true)),
    (amount_app c (match ho with Some _ => _ | None => _ end)), (amount_app c (match bc with Some _ => _ | None => _ end)). rewrite <- !N.add_assoc.
  f_equal; [|f_equal; [|f_equal; [|f_equal]]].
  - destruct a as [x|]; [|reflexivity]. cbn [has].
    rewrite (amount_app c (masked_row _ _ _ _ _)), !(amount_app c (row _ _ _ _)), Rw1, !Rw8, remark_amount by (reflexivity || apply prints_addr || apply prints_mask || now apply P). lia.
  - apply Rw1; [reflexivity|apply prints_net_text].
  - destruct ho as [[x y]|]; cbn [has]; [|apply remark_amount; now apply P].
    rewrite (amount_app c (row _ _ _ _)), !Rw8 by (reflexivity || apply prints_addr). lia.
  - destruct bc as [b|]; cbn [has]; [|apply remark_amount; now apply P]. apply (Rw8 (lit "Broadcast:")); [reflexivity|apply prints_addr].
  - destruct (2 <? k); [|rewrite amount_frag by (now apply P); reflexivity]. rewrite amount_app, (amount_app c _ [break]), amount_break.
    unfold headings. rewrite amount_cons, !amount_frag by (apply prints_fill; first [apply prints_dec | now apply P]). rewrite <- E3.
    destruct cl' as [t|]; cbn [has]; [rewrite amount_frag by (now apply (class_text R F n))|change (amount c []) with 0]; destruct c; reflexivity.
Qed.

(** ** Networks *)
Lemma c98_show : forall (U : Unicode) (R : Rust) (T : Terminal) (prog : str) (ss : list str) (hs : list N),
  Forall unicode (prog :: ss) -> no_command ss -> Forall2 (takes_up colors_enabled) ss hs ->
  line_ends (on_stdout (main (prog :: ss))) + 1 = add_up hs + N.of_nat (List.length ss).
Proof.
  intros U R T prog ss hs Ha Hn H. destruct Hn as (w & rest & Ess & Hw).
  assert (Hne : ss <> []) by (rewrite Ess; discriminate).
  destruct (c62_show R prog ss) as (mss & Hm & D).
  - exact Hne.
  - intros w' Hw'. rewrite Ess in Hw'. cbn in Hw'. now injection Hw' as <-.
  - intros s Hs N. clear -H Hs N. induction H as [|s' h ss hs (F & a & n & k & cl & M & _) H IH]; [destruct Hs|].
    destruct Hs as [->|Hs]; [now apply (N F a n)|now apply IH].
  - rewrite (stdout_ends U R T _ _ _ Ha (does_runs R _ _ _ D)). clear D Ess Ha.
    assert (E : Forall2 (fun ms h => amount colors_enabled ms = h) mss hs).
    { clear -H Hm. revert hs H. induction Hm as [|s ms ss mss (F & a & n & M & Dd) Hm IH]; intros hs H; inversion H as [|? h ? hs' (G & b & m & k & cl & M' & Hk & Hcl & Eh) H']; subst; [constructor|].
      constructor; [|now apply IH]. clear IH H H' Hm. revert k cl Hk Hcl.
      apply (means_once R F G s a n b m (fun G b m => forall k cl, count m k -> class_of G m cl -> amount colors_enabled ms = height colors_enabled G true k (has cl)) M M').
      intros k cl Hk Hcl. apply (described_amount R F colors_enabled n (Some a)); try assumption. apply (means_wf R F s a n M). }
    pose proof (Forall2_len _ _ _ Hm) as L. rewrite L. assert (Hne' : mss <> []) by (intros ->; destruct ss; [now apply Hne|discriminate L]).
    clear -E Hne'. induction E as [|ms h mss hs E0 E IH]; [congruence|]. cbn [spaced add_up fold_right List.length]. fold (add_up hs).
    rewrite amount_app, E0. destruct mss as [|ms' mss].
    + inversion E; subst. change (amount colors_enabled []) with 0. cbn. lia.
    + rewrite amount_cons, amount_break. assert (Q : ms' :: mss <> []) by discriminate. apply IH in Q. cbn [List.length] in *. lia.
Qed.

(** ** Lists *)
Lemma ends_lines ls : Forall (fun l => ~ In nl l) ls -> line_ends (lines ls) = N.of_nat (List.length ls).
Proof.
  intros H. induction H as [|l ls Hl H IH]; [reflexivity|]. unfold lines in *. cbn [flat_map List.length]. rewrite !ends_app, IH, ends_none by exact Hl.
  change (line_ends newline) with 1. lia.
Qed.
Definition weight (m : errmsg) : N := match m with MsgUsage => 12 | _ => 1 end.
Lemma told_len ms ls : told ms ls -> (forall l, ~ wording MsgUsage l) -> N.of_nat (List.length ls) = add_up (map weight ms).
Proof.
  intros H Hu. induction H as [|ms ls H IH|m ms l ls Hw H IH]; [reflexivity|..].
  - rewrite app_length, Nat2N.inj_add, IH. reflexivity.
  - cbn [List.length map add_up fold_right]. fold (add_up (map weight ms)). rewrite <- IH. destruct m; cbn [weight]; try lia. now destruct (Hu l).
Qed.
Lemma no_usage l : ~ wording MsgUsage l.
Proof. intros H. exact H. Qed.
Lemma stderr_ends (U : Unicode) (R : Rust) (T : Terminal) args ms r : Forall unicode args -> runs args ms r ->
  line_ends (on_stderr (main args)) = add_up (map weight (faults ms)).
Proof.
  intros Ha H. destruct (worded U R T args Ha) as (ls & Ht & -> & Hl). rewrite (H T) in Ht. cbn [fst] in Ht. rewrite faults_problems in Ht.
  rewrite <- (told_len _ _ Ht no_usage). apply ends_lines. eapply Forall_impl; [|exact Hl]. intros l Hx. now apply tidy_one_line.
Qed.
Lemma faults_app ms ms' : faults (ms ++ ms') = faults ms ++ faults ms'.
Proof. apply flat_map_app. Qed.
Lemma faults_says {X} (f : X -> str) l : faults (map (fun x => says (f x)) l) = [].
Proof. induction l as [|x l IH]; [reflexivity|]. exact IH. Qed.
Lemma add_up_app l l' : add_up (l ++ l') = add_up l + add_up l'.
Proof. induction l as [|x l IH]; [reflexivity|]. cbn [app add_up fold_right]. fold (add_up (l ++ l')) (add_up l). lia. Qed.

Lemma c98_enumerate : forall (U : Unicode) (R : Rust) (T : Terminal) (prog w : str) (ss : list str) (ks es : list N),
  Forall unicode (prog :: w :: ss) -> In w enumerate_words -> ss <> [] ->
  Forall2 (fun s ke => yields s (fst ke) (snd ke)) ss (combine ks es) -> List.length ks = List.length es ->
  line_ends (on_stdout (main (prog :: w :: ss))) = add_up ks /\
  line_ends (on_stderr (main (prog :: w :: ss))) = add_up es.
Proof.
  intros U R T prog w ss ks es Ha Hw Hne H L. destruct (c62_enumerate R prog w ss Hw Hne) as (mss & z & Hm & _ & D).
  rewrite (stdout_ends U R T _ _ _ Ha (does_runs R _ _ _ D)), (stderr_ends U R T _ _ _ Ha (does_runs R _ _ _ D)). clear -H Hm L.
  revert ks es H L. induction Hm as [|s ms ss mss Hs Hm IH]; intros ks es H L.
  - destruct ks, es; try discriminate; [now split|]. inversion H.
  - destruct ks as [|k ks], es as [|e es]; try discriminate; [inversion H|]. cbn [combine] in H. inversion H as [|? ? ? ? H0 H1]; subst. cbn [fst snd] in H0.
    injection L as L. destruct (IH ks es H1 L) as [I1 I2]. cbn [List.concat add_up fold_right]. fold (add_up ks) (add_up es).
    rewrite amount_app, faults_app, map_app, add_up_app, I1, I2.
    assert (amount colors_enabled ms = k /\ add_up (map weight (faults ms)) = e) as [-> ->]; [|split; reflexivity].
    destruct Hs as [(F & a & n & l & M & Hi & Hs & ->)|(N & x & _ & ->)], H0 as [(G & b & m & M' & Hk & ->)|(N' & -> & ->)].
    + rewrite faults_says, amount_lines by (intros; apply prints_addr). split; [|reflexivity].
      pose proof (means_once R G F s b m a n (fun F _ n => count n k) M' M Hk) as Hk'. cbn beta in Hk'.
      apply (count_once n); [|exact Hk']. exists l. split; [now apply listed_NoDup|]. split; [exact Hi|reflexivity].
    + destruct N'. exists F, a, n. exact M.
    + now destruct (N G b m).
    + split; reflexivity.
Qed.

Lemma of_nat_le a b : (a <= b)%nat -> N.of_nat a <= N.of_nat b.
Proof. lia. Qed.
Lemma c98_minimize : forall (U : Unicode) (R : Rust) (T : Terminal) (F : family) (prog w : str) (ss : list str),
  Forall unicode (prog :: w :: ss) -> In w minimize_words -> ss <> [] -> Forall (of_family F) ss ->
  1 <= line_ends (on_stdout (main (prog :: w :: ss))) <= N.of_nat (List.length ss).
Proof.
  intros U R T F prog w ss Ha Hw Hne H.
  assert (exists l : list (addr F * net F), Forall2 (fun s an => means F s (fst an) (snd an)) ss l) as (l & Hl).
  { clear -H. induction H as [|s ss (a & n & M) H (l & IH)]; [now exists []|]. exists ((a, n) :: l). now constructor. }
  destruct (c62_minimize R F prog w ss l Hw Hne Hl) as (r & E & D).
  rewrite (stdout_ends U R T _ _ _ Ha (does_runs R _ _ _ D)), amount_lines by apply prints_net.
  assert (Wl : Forall wf_net (map snd l)).
  { clear -R Hl. induction Hl as [|s [a n] ss l M Hl IH]; [constructor|]. constructor; [apply (means_wf R F s a n M)|exact IH]. }
  pose proof (c39_not_longer R F _ _ Wl E) as L. rewrite map_length, <- (Forall2_len _ _ _ Hl) in L. split; [|exact (of_nat_le _ _ L)].
  destruct r as [|n r]; [exfalso|cbn [List.length]; lia].
  destruct Hl as [|s [a n] ss l M Hl]; [congruence|]. cbn [map snd] in E, Wl.
  destruct (c39_same_addresses R F _ Wl) as (r' & E' & C). rewrite E in E'. injection E' as <-. inversion Wl as [|? ? W0 _]; subst.
  specialize (C (base_addr n) (wf_base n W0)). assert (X : exists m, In m (n :: map snd l) /\ member m (base_addr n)) by (exists n; split; [now left|apply member_base]).
  apply C in X. now destruct X as (x & [] & _).
Qed.

Lemma top_lt F (x : N) : x < 2 ^ width F -> x <> top F -> x + 1 < 2 ^ width F.
Proof. unfold top. lia. Qed.
Lemma range_sizes (R : Rust) F (a b : addr F) r : valid a -> valid b -> range_to_subnets a b = Ret r ->
  1 <= N.of_nat (List.length r) /\ N.of_nat (List.length r) <= N.max (value a) (value b) - N.min (value a) (value b) + 1.
Proof.
  intros Va Vb E. assert (Hr : N.max (value a) (value b) <> top F) by (apply (c37_returns_iff R F a b Va Vb); now exists r).
  pose proof (value_lt a Va) as La. pose proof (value_lt b Vb) as Lb.
  assert (Lm : N.max (value a) (value b) + 1 < 2 ^ width F) by (apply top_lt; [lia|exact Hr]).
  destruct (c35_covers_exactly R F a b Va Vb Lm) as (l & E' & Hc & Cov & _). rewrite E in E'. injection E' as <-.
  destruct (c79_derange R F a b r Va Vb E) as (ks & H & <-). split.
  - destruct r as [|n r]; [|cbn [List.length]; lia]. exfalso. specialize (Cov a Va). destruct Cov as [Cov _].
    destruct Cov as (n & [] & _). lia.
  - clear -H Hc. induction H as [|n k r ks (l & _ & Hl & <-) H IH]; [cbn; lia|]. inversion Hc as [|? ? (p & Hp) Hc']; subst. apply IH in Hc'. cbn [List.length fold_right].
    enough (1 <= N.of_nat (List.length l)) by lia. assert (In (base_addr n) l) as I by (apply Hl; split; [apply wf_base, Hp|apply member_base]).
    destruct l; [destruct I|cbn [List.length]; lia].
Qed.

Lemma c98_derange : forall (U : Unicode) (R : Rust) (T : Terminal) (F : family) (prog w s t : str) (a b : addr F),
  Forall unicode [prog; w; s; t] -> In w derange_words -> address_text F s a -> address_text F t b ->
  let k := line_ends (on_stdout (main [prog; w; s; t])) in
  let size := N.max (value a) (value b) - N.min (value a) (value b) + 1 in
  k <= size /\ k <= 2 * (width F - 1) /\ (N.max (value a) (value b) <> top F <-> 1 <= k).
Proof.
  intros U R T F prog w s t a b Ha Hw Hs Ht k size. pose proof (addr_valid F s a Hs) as Va. pose proof (addr_valid F t b Ht) as Vb.
  destruct (N.eq_dec (N.max (value a) (value b)) (top F)) as [E|E].
  - assert (Ek : k = 0).
    { unfold k. rewrite main_run by exact Ha. cbn [on_stdout]. now rewrite (c83_derange R T F prog w s t a b Hw Hs Ht E). }
    rewrite Ek. unfold size. split; [lia|]. split; [lia|]. split; intros; [contradiction|lia].
  - destruct (c62_derange R F prog w s t a b Hw Hs Ht E) as (r & Er & D).
    assert (Ek : k = N.of_nat (List.length r)).
    { unfold k. rewrite (stdout_ends U R T _ _ _ Ha (does_runs R _ _ _ D)). apply amount_lines. intros. apply prints_net. }
    rewrite Ek. destruct (range_sizes R F a b r Va Vb Er) as [L1 L2]. split; [exact L2|]. split; [exact (c75_count R F a b r Va Vb Er)|]. split; intros; assumption.
Qed.

(** ** Resizing and splitting *)
Lemma described_height (R : Rust) F (n : net F) a ms : wf_net n -> described n a ms ->
  amount true ms = height true F (has a) (2 ^ host_bits (subnet_mask n)) false.
Proof.
  intros W D. pose proof D as (ho & bc & k & cl & _ & _ & Hk & Hcl & _). rewrite (described_amount R F true n a ms k cl W D Hk Hcl).
  destruct (c23_address_count R F n W) as [C E]. rewrite (count_once n k _ Hk C), E. unfold height. reflexivity.
Qed.
Lemma blocks_amount {X} c (g : X -> str) (f : X -> N) (l : list (X * list mark)) :
  (forall x, Pf_Process.prints (g x)) -> Forall (fun xm => amount c (snd xm) = f (fst xm)) l ->
  amount c (flat_map (fun xm => says (g (fst xm)) :: snd xm ++ [break]) l) = add_up (map (fun xm => 2 + f (fst xm)) l).
Proof.
  intros Hg H. induction H as [|[x ms] l E H IH]; [reflexivity|]. cbn [flat_map map add_up fold_right fst snd] in *. fold (add_up (map (fun xm => 2 + f (fst xm)) l)).
  rewrite amount_app, IH, amount_cons, amount_says, amount_app, amount_break, E by apply Hg. lia.
Qed.
Lemma add_up_const {X} (x : N) (l : list X) : add_up (map (fun _ => x) l) = N.of_nat (List.length l) * x.
Proof. induction l as [|y l IH]; [reflexivity|]. cbn [map add_up fold_right List.length]. fold (add_up (map (fun _ : X => x) l)). rewrite IH. lia. Qed.

Lemma c98_resize : forall (U : Unicode) (R : Rust) (T : Terminal) (F : family) (prog w s t : str) (a m : addr F) (n : net F),
  Forall unicode [prog; w; s; t] -> In w resize_words -> means F s a n -> mask_text F t m -> colors_enabled = true ->
  let h := host_bits (subnet_mask n) in
  line_ends (on_stdout (main [prog; w; s; t])) =
    2 + height true F false (2 ^ h) false + 2 ^ (h - host_bits m) * (2 + height true F false (2 ^ host_bits m) false).
Proof.
  intros U R T F prog w s t a m n Ha Hw M Ht Hc h. destruct (c62_resize R F prog w s t a n m Hw M Ht) as (r & o & first & mss & Er & Df & Dm & D).
  rewrite (stdout_ends U R T _ _ _ Ha (does_runs R _ _ _ D)), Hc. destruct (means_wf R F s a n M) as [_ Wn]. destruct (subnet_mask_text R F t m Ht) as [Vm _].
  unfold resize_marks. rewrite amount_cons, amount_says by now apply printable_check. rewrite amount_app, amount_cons, amount_break, (described_height R F n None first Wn Df).
  assert (Q : N.of_nat (List.length r) = 2 ^ (h - host_bits m) /\ Forall (fun e => wf_net e /\ subnet_mask e = m) r).
  { unfold h. destruct (N.lt_trichotomy (host_bits m) (host_bits (subnet_mask n))) as [C|[C|C]].
    - destruct (c53_subnets R F n m Wn Vm C) as (l & E & L & Hl & _). rewrite Er in E. injection E as <- _. now split.
    - destruct (c54_same_size R F n m Wn Vm C) as (n' & E & W' & Em & _). rewrite Er in E. injection E as -> _.
      replace (host_bits (subnet_mask n) - host_bits m) with 0 by lia. split; [reflexivity|]. apply Forall_cons; [now split|apply Forall_nil].
    - destruct (c52_supernet R F n m Wn Vm C) as (n' & E & W' & Em & _). rewrite Er in E. injection E as -> _.
      replace (host_bits (subnet_mask n) - host_bits m) with 0 by lia. split; [reflexivity|]. apply Forall_cons; [now split|apply Forall_nil]. }
  destruct Q as [Lr Hr]. rewrite <- Lr.
  pose proof (blocks_amount true (fun i => match o with Lt => lit "Supernet:" | Eq => lit "Same-sized net:" | Gt => lit "Subnet " ++ fmt_dec (N.of_nat i) ++ lit ":" end)
    (fun _ => height true F false (2 ^ host_bits m) false) (combine (seq 1 (List.length mss)) mss)) as B. rewrite B; clear B.
  - rewrite add_up_const, combine_length, seq_length, Nat.min_id, <- (Forall2_len _ _ _ Dm). cbn [has]. fold h. match goal with |- context[?x * (2 + height true F false (2 ^ host_bits m) false)] => set (q := x * (2 + height true F false (2 ^ host_bits m) false)) end.
    change (1 + (height true F false (2 ^ h) false + (1 + q)) = 2 + height true F false (2 ^ h) false + q). clearbody q. lia.
  - intros i. destruct o; [now apply printable_check..|]. apply prints_app; [now apply printable_check|]. apply prints_app; [apply prints_dec|now apply printable_check].
  - apply Forall_forall. intros [i ms] I. cbn [fst snd]. apply in_combine_r in I. clear -R I Hr Dm.
    induction Dm as [|e ms' r mss De Dm IH]; [destruct I|]. inversion Hr as [|? ? [We Em] Hr']; subst. destruct I as [->|I]; [|now apply IH].
    now apply (described_height R F e None ms We).
Qed.

Lemma split_base (R : Rust) F (n : net F) first cs r mss : wf_net n -> described n None first ->
  Forall2 (fun c (m : net F) => piece c < width F /\ is_cidr m (width F - piece c)) cs r -> Forall2 (fun e ms => described e None ms) r mss ->
  amount true (split_marks first cs mss) =
    2 + height true F false (2 ^ host_bits (subnet_mask n)) false + add_up (map (fun c => 2 + height true F false (2 ^ piece c) false) cs).
Proof.
  intros Wn Df Hr Dm. unfold split_marks. rewrite amount_cons, amount_says by now apply printable_check.
  rewrite amount_app, amount_cons, amount_break, (described_height R F n None first Wn Df).
  pose proof (blocks_amount true (fun c => lit "Subnet for " ++ fmt_Z c ++ lit " hosts:") (fun c => height true F false (2 ^ piece c) false) (combine cs mss)) as B. rewrite B; clear B.
  - cbn [has]. replace (map (fun xm : Z * list mark => 2 + height true F false (2 ^ piece (fst xm)) false) (combine cs mss))
      with (map (fun c => 2 + height true F false (2 ^ piece c) false) cs); [lia|].
    assert (L : List.length cs = List.length mss) by (rewrite (Forall2_len _ _ _ Hr); apply (Forall2_len _ _ _ Dm)).
    clear -L. revert mss L. induction cs as [|c cs IH]; intros [|ms mss] L; try discriminate; [reflexivity|]. cbn [combine map fst]. f_equal. apply IH. now injection L.
  - intros c. apply prints_app; [now apply printable_check|]. apply prints_app; [apply prints_Z|now apply printable_check].
  - clear -R Hr Dm. revert mss Dm. induction Hr as [|c m cs r [Hp Hm] Hr IH]; intros mss Dm; inversion Dm as [|? ms ? mss' De Dm']; subst; cbn [combine]; constructor; [|now apply IH].
    cbn [fst snd]. rewrite (described_height R F m None ms (proj1 Hm) De). cbn [has]. do 2 f_equal.
    destruct Hm as [Wm Em]. apply (wf_prefix m Wm) in Em. rewrite (host_bits_cidr _ _ (wf_mask m Wm) Em). lia.
Qed.

Lemma c98_split : forall (U : Unicode) (R : Rust) (T : Terminal) (F : family) (prog w s : str) (ss : list str) (a : addr F) (n : net F) (cs : list Z),
  Forall unicode (prog :: w :: s :: ss) -> In w split_words -> means F s a n -> counts_text ss cs -> colors_enabled = true ->
  let base := 2 + height true F false (2 ^ host_bits (subnet_mask n)) false in
  let parts := add_up (map (fun c => 2 + height true F false (2 ^ piece c) false) cs) in
  exists u, line_ends (on_stdout (main (prog :: w :: s :: ss))) =
    base + (if run_start n cs + total cs <=? top F then parts else 0) + 1 + u /\
    u <= 2 * (width F - 1) /\
    (0 < u <-> split_inside n cs /\ forall h, highest n h -> N.max (run_start n cs + total cs) (value h) <> top F).
Proof.
  intros U R T F prog w s ss a n cs Ha Hw M Hcs Hc base parts. destruct (means_wf R F s a n M) as [_ Wn].
  destruct (c25_last_addr R F n Wn) as (h & _ & Hh).
  destruct (c62_split R F prog w s ss a n cs h Hw M Hcs Hh) as (first & Df & Hno & Hyes).
  assert (Ps : forall t, forallb (Messages.between 32 126) t = true -> amount true [says t] = 1) by (intros; now apply amount_says, printable_check).
  destruct (N.leb_spec (run_start n cs + total cs) (top F)) as [L|L].
  - destruct (Hyes L) as (r & mss & Er & Dm & Hsmall & Hin). pose proof (c46_one_per_request R F n cs r Wn Er) as Hr.
    pose proof (split_base R F n first cs r mss Wn Df Hr Dm) as B.
    assert (Hne : cs <> []) by (destruct Hcs as (Hne & H2 & _); destruct H2; congruence). destruct (inside_dec R n cs Wn Hne) as [I|I].
    + destruct (N.eq_dec (N.max (run_start n cs + total cs) (value h)) (top F)) as [E|E].
      * destruct (c83_split R F prog w s ss a n cs h Hw M Hcs Hh I E) as (first' & r' & mss' & Df' & Er' & Dm' & D).
        pose proof (c46_one_per_request R F n cs r' Wn Er') as Hr'. pose proof (split_base R F n first' cs r' mss' Wn Df' Hr' Dm') as B'.
        exists 0. rewrite (stdout_ends U R T _ _ _ Ha D), Hc, amount_app, B', Ps by reflexivity. unfold base, parts. split; [lia|]. split; [lia|].
        split; [lia|]. intros [_ X]. now destruct (X h Hh).
      * destruct (Hin I E) as (b & us & Vb & Eb & Eu & D). destruct (range_sizes R F b h us Vb (proj1 Hh) Eu) as [L1 _].
        exists (N.of_nat (List.length us)). rewrite (stdout_ends U R T _ _ _ Ha (does_runs R _ _ _ D)), Hc, amount_app, B, amount_cons, Ps by reflexivity.
        rewrite amount_lines by (intros; apply prints_net). unfold base, parts. split; [lia|]. split; [exact (c75_count R F b h us Vb (proj1 Hh) Eu)|].
        split; [|lia]. intros _. split; [exact I|]. intros h' Hh'. assert (value h' = value h) as -> by (destruct Hh as (V1 & M1 & X1), Hh' as (V2 & M2 & X2); specialize (X1 h' V2 M2); specialize (X2 h V1 M1); lia).
        exact E.
    + exists 0. rewrite (stdout_ends U R T _ _ _ Ha (does_runs R _ _ _ (Hsmall I))), Hc, amount_app, B, Ps by reflexivity. unfold base, parts.
      split; [lia|]. split; [lia|]. split; [lia|]. intros [X _]. contradiction.
  - destruct (Hno L) as [_ D]. exists 0. rewrite (stdout_ends U R T _ _ _ Ha (does_runs R _ _ _ D)), Hc, amount_app, Ps by reflexivity.
    rewrite (split_base R F n first [] [] [] Wn Df) by constructor. cbn [map add_up fold_right]. unfold base. split; [lia|]. split; [lia|]. split; [lia|].
    intros [[X _] _]. lia.
Qed.

(** ** Messages *)
Lemma quiet_faults ms : quiet ms -> faults ms = [].
Proof. intros H. induction H as [|m ms Hm H IH]; [reflexivity|]. destruct m; [exact IH|exact IH|]. now destruct Hm. Qed.
Lemma quiet_lines ts : quiet (map says ts).
Proof. apply (quiet_says (fun t => t)). Qed.
Lemma quiet_depicted (R : Rust) F (n : net F) a ms : wf_net n -> (forall x, a = Some x -> valid x) -> depicted n a ms -> quiet ms.
Proof. intros W Va D. apply (depicted_described R) in D; [|assumption..]. now apply (quiet_described R n a). Qed.
Lemma quiet_depicteds (R : Rust) F (r : list (net F)) mss : Forall wf_net r -> Forall2 (fun e ms => depicted e None ms) r mss -> Forall quiet mss.
Proof.
  intros W H. induction H as [|e ms r mss D H IH]; [constructor|]. inversion W; subst. constructor; [|now apply IH].
  apply (quiet_depicted R F e None ms); try assumption. discriminate.
Qed.
Lemma quiet_page first (ms : list mark) : quiet first -> quiet ms -> quiet (first ++ break :: ms).
Proof. intros H H'. apply quiet_app; [exact H|]. apply quiet_cons; [easy|exact H']. Qed.
Lemma quiet_resize_page first o mss ms : quiet first -> Forall quiet mss -> resize_page first o mss ms -> quiet ms.
Proof.
  intros Hf H (ts & _ & ->). apply quiet_cons; [easy|]. apply quiet_page; [exact Hf|].
  apply (quiet_blocks (fun t => match o with Lt => lit "Supernet:" | Eq => lit "Same-sized net:" | Gt => lit "Subnet " ++ t ++ lit ":" end)). exact H.
Qed.
Lemma quiet_split_page first cs mss ms : quiet first -> Forall quiet mss -> split_page first cs mss ms -> quiet ms.
Proof.
  intros Hf H (ts & _ & ->). apply quiet_cons; [easy|]. apply quiet_page; [exact Hf|].
  apply (quiet_blocks (fun t => lit "Subnet for " ++ t ++ lit " hosts:")). exact H.
Qed.
Lemma wf_placed F (n : net F) cs r : placed n cs r -> Forall wf_net r.
Proof. intros (H & _). induction H as [|c m cs r (_ & Hm & _) H IH]; constructor; assumption. Qed.

Definition few (args : list str) (ms : list mark) : Prop :=
  quiet ms \/ (exists e, ms = [Problem e]) \/
  exists prog w ss, args = prog :: w :: ss /\ In w enumerate_words /\ add_up (map weight (faults ms)) <= N.of_nat (List.length ss).
Lemma quiet_problem m : (forall e, m <> Problem e) -> quiet [m].
Proof. intros H. apply quiet_cons; [|apply quiet_nil]. destruct m; try easy. now destruct (H m). Qed.
Lemma duty_few (R : Rust) bits args ms z : duty bits args ms z -> few args ms.
Proof.
  intros D.
  destruct D as [args La|prog w' rest Hm|prog rest|prog rest|prog ss mss Hn H|prog pre s post e Hn Hp He|prog w' ss mss z Hw Hne H Hz
    |F prog w' ss l r ts Hw Hne H Hm Ht|F prog w' pre s post e Hw Hp He|F G prog w' pre s post Hw Hne Hp Hs Hg
    |F prog w' s t a b r ts Hw Ha Hb Hn Hr Ht|prog w' s t e Hw He|F prog w' s t a e Hw Ha He|F G prog w' s t a b Hw Ha Hb Hg
    |F prog w' s t a n m r o first mss ms Hw M Hm Hr Df Dm P|prog w' s t e Hw He|F prog w' s t a n e Hw M He|F prog w' s t a n p Hw M Hp Hb|F G prog w' s t a n m Hw M Hm Hg
    |F prog w' s ss a n cs r h us first mss ms ts Hw M Hcs Hp Hi Hh y Hy Hr Df Dm P Ht
    |F prog w' s ss a n cs r first mss ms Hw M Hcs Hp Hl Hi Df Dm P|F prog w' s ss a n cs first ms Hw M Hcs Hl Df P
    |prog w' s ss cs e Hw Hcs He|prog w' s pre cs t post Hw Hpre Hnn Ht|prog w' s pre cs t cc post Hw Hpre Hnn Ht Hneg];
    try (right; left; now eexists).
  - left. apply Forall_map. apply Forall_forall. intros x _. easy.
  - left. apply quiet_spaced. clear Hn. induction H as [|s ms ss mss (F & a & n & M & Dp) H IH]; constructor; [|exact IH].
    destruct (means_wf R F s a n M) as [Va Wn]. apply (quiet_depicted R F n (Some a) ms Wn); [now intros x [= <-]|exact Dp].
  - right. right. exists prog, w', ss. split; [reflexivity|]. split; [exact Hw|]. clear -H.
    induction H as [|s ms ss mss Hs H IH]; [cbn; lia|]. cbn [List.concat List.length]. rewrite faults_app, map_app, add_up_app.
    enough (add_up (map weight (faults ms)) <= 1) by lia. destruct Hs as [(F & a & n & l & _ & _ & Hx)|(e & _ & ->)]; [|cbn; lia].
    rewrite quiet_faults; [cbn; lia|]. clear -Hx. induction Hx as [|x m l ms (t & _ & ->) Hx IH]; [apply quiet_nil|]. now apply quiet_cons.
  - left. apply quiet_lines.
  - left. apply quiet_lines.
  - left. destruct (means_wf R F s a n M) as [_ Wn]. apply (quiet_resize_page first o mss ms); [|apply (quiet_depicteds R F r mss); [apply (wf_resized n m r o Hr)|exact Dm]|exact P].
    apply (quiet_depicted R F n None first Wn); [discriminate|exact Df].
  - left. destruct (means_wf R F s a n M) as [_ Wn]. apply quiet_app; [|apply quiet_cons; [easy|apply quiet_lines]].
    apply (quiet_split_page first cs mss ms); [|apply (quiet_depicteds R F r mss); [apply (wf_placed F n cs r Hp)|exact Dm]|exact P].
    apply (quiet_depicted R F n None first Wn); [discriminate|exact Df].
  - left. destruct (means_wf R F s a n M) as [_ Wn]. apply quiet_app; [|apply quiet_cons; [easy|apply quiet_nil]].
    apply (quiet_split_page first cs mss ms); [|apply (quiet_depicteds R F r mss); [apply (wf_placed F n cs r Hp)|exact Dm]|exact P].
    apply (quiet_depicted R F n None first Wn); [discriminate|exact Df].
  - left. destruct (means_wf R F s a n M) as [_ Wn]. apply quiet_app; [|apply quiet_cons; [easy|apply quiet_nil]].
    apply (quiet_split_page first [] [] ms); [|constructor|exact P]. apply (quiet_depicted R F n None first Wn); [discriminate|exact Df].
Qed.
Lemma fate_few (R : Rust) bits checked args ms f : fate bits checked args ms f -> few args ms.
Proof.
  intros D. destruct D as [args ms z D| | |F prog w' s ss a n cs r h first mss ms Hw M Hcs Hp Hi Hh Hy Df Dm P].
  - now apply (duty_few R bits args ms z).
  - left. apply quiet_nil.
  - left. apply quiet_nil.
  - left. destruct (means_wf R F s a n M) as [_ Wn]. apply quiet_app; [|apply quiet_cons; [easy|apply quiet_nil]].
    apply (quiet_split_page first cs mss ms); [|apply (quiet_depicteds R F r mss); [apply (wf_placed F n cs r Hp)|exact Dm]|exact P].
    apply (quiet_depicted R F n None first Wn); [discriminate|exact Df].
Qed.

Lemma c98_messages : forall (U : Unicode) (R : Rust) (T : Terminal) (args : list str),
  In (line_ends (on_stderr (main args))) [0; 1; 12] \/
  exists prog w ss, args = prog :: w :: ss /\ In w enumerate_words /\
    line_ends (on_stderr (main args)) <= N.of_nat (List.length ss).
Proof.
  intros U R T args. destruct (unicode_args_dec args) as [Ha|Ha].
  2: { rewrite main_panic by exact Ha. left. now left. }
  destruct (fate_all R args) as (ms & r & D & H). rewrite (stderr_ends U R T args ms r Ha D). apply (fate_few R) in H.
  destruct H as [H|[(e & ->)|H]].
  - left. rewrite quiet_faults by exact H. now left.
  - left. destruct e; (right; left; reflexivity) || (right; right; left; reflexivity).
  - now right.
Qed.

(** ** Something *)
Definition audible (m : mark) : Prop := match m with Frag _ s | Plain s => s <> [] | Problem _ => True end.
Definition heard (ms : list mark) : Prop := Exists audible ms.
Lemma heard_main (U : Unicode) (R : Rust) (T : Terminal) args ms r : Forall unicode args -> runs args ms r -> heard ms ->
  on_stdout (main args) <> [] \/ on_stderr (main args) <> [].
Proof.
  intros Ha D H.
  assert (N : forall s t : str, s <> [] \/ t <> [] -> s ++ t <> []) by (intros [|x s] [|y t] [Q|Q]; cbn; congruence).
  assert (C : flat_map to_stdout (map (paint colors_enabled) ms) <> [] \/ faults ms <> []).
  { clear D Ha. induction H as [m ms Hm|m ms H IH]; cbn [map flat_map].
    - destruct m as [c s|s|e]; cbn [paint audible] in *.
      + left. apply N. left. destruct colors_enabled; [|unfold line; cbn [to_stdout]; apply N; now left]. cbn [to_stdout]. unfold styled_text. destruct (style c). discriminate.
      + left. apply N. now left.
      + right. discriminate.
    - destruct IH as [IH|IH]; [left; apply N; now right|right]. destruct m; [exact IH|exact IH|discriminate]. }
  destruct C as [C|C]; [left|right].
  - rewrite main_run by exact Ha. cbn [on_stdout]. rewrite (D T). exact C.
  - pose proof (stderr_ends U R T args ms r Ha D) as E. intros Z0. rewrite Z0 in E. destruct (faults ms) as [|e es]; [congruence|].
    cbn [map add_up fold_right] in E. change (line_ends []) with 0 in E. destruct e; cbn [weight] in E; lia.
Qed.
Lemma heard_says t : audible (says t).
Proof. cbn [says audible]. unfold newline. destruct t; discriminate. Qed.
Lemma heard_described (R : Rust) F (n : net F) a ms : described n a ms -> heard ms.
Proof.
  intros (ho & bc & k & cl & _ & _ & _ & _ & ->). unfold report. apply Exists_app. right. apply Exists_app. left. apply Exists_cons_hd. discriminate.
Qed.
Lemma fate_heard (R : Rust) bits checked args ms f z : fate bits checked args ms f -> f = Status z -> heard ms.
Proof.
  intros H E. destruct H as [args ms z' D| | |]; try discriminate. clear E.
  destruct D as [args La|prog w' rest Hm|prog rest|prog rest|prog ss mss Hn H|prog pre s post e Hn Hp He|prog w' ss mss z' Hw Hne H Hz
    |F prog w' ss l r ts Hw Hne H Hm Ht|F prog w' pre s post e Hw Hp He|F G prog w' pre s post Hw Hne Hp Hs Hg
    |F prog w' s t a b r ts Hw Ha Hb Hn Hr Ht|prog w' s t e Hw He|F prog w' s t a e Hw Ha He|F G prog w' s t a b Hw Ha Hb Hg
    |F prog w' s t a n m r o first mss ms Hw M Hm Hr Df Dm P|prog w' s t e Hw He|F prog w' s t a n e Hw M He|F prog w' s t a n p Hw M Hp Hb|F G prog w' s t a n m Hw M Hm Hg
    |F prog w' s ss a n cs r h us first mss ms ts Hw M Hcs Hp Hi Hh y Hy Hr Df Dm P Ht
    |F prog w' s ss a n cs r first mss ms Hw M Hcs Hp Hl Hi Df Dm P|F prog w' s ss a n cs first ms Hw M Hcs Hl Df P
    |prog w' s ss cs e Hw Hcs He|prog w' s pre cs t post Hw Hpre Hnn Ht|prog w' s pre cs t cc post Hw Hpre Hnn Ht Hneg];
    try (apply Exists_cons_hd; exact I).
  - apply Exists_cons_hd. discriminate.
  - destruct Hn as (w & rest & -> & _). inversion H as [|? ms ? mss' (F & a & n & M & Dp) H']; subst. cbn [spaced]. apply Exists_app. left.
    destruct (means_wf R F w a n M) as [Va Wn]. apply (depicted_described R) in Dp; [|exact Wn|now intros x [= <-]]. now apply (heard_described R F n (Some a)).
  - destruct H as [|s ms ss mss Hs H]; [congruence|]. cbn [List.concat]. apply Exists_app. left.
    destruct Hs as [(F & a & n & l & M & Hl & Hx)|(e & _ & ->)]; [|apply Exists_cons_hd; exact I].
    destruct (means_wf R F s a n M) as [_ Wn]. destruct Hx as [|x m l ms (t & _ & ->) Hx]; [|apply Exists_cons_hd, heard_says].
    exfalso. apply (proj1 Hl (base_addr n)). split; [now apply wf_base|apply member_base].
  - pose proof (specs_wf R F ss l H) as Wl. apply (c78_exact R F l r Wl) in Hm.
    destruct Ht as [|n t r ts _ Ht]; [|apply Exists_cons_hd, heard_says]. exfalso.
    destruct H as [|s n ss l (a & M) H]; [congruence|].
    destruct (c39_same_addresses R F _ Wl) as (r' & E' & C). rewrite Hm in E'. injection E' as <-. inversion Wl as [|? ? W0 _]; subst.
    specialize (C (base_addr n) (wf_base n W0)). assert (X : exists m, In m (n :: l) /\ member m (base_addr n)) by (exists n; split; [now left|apply member_base]).
    apply C in X. now destruct X as (x & [] & _).
  - destruct Ht as [|n t' r ts _ Ht]; [|apply Exists_cons_hd, heard_says]. exfalso. destruct Hr as ((_ & C) & _). specialize (C a (addr_valid F s a Ha)).
    destruct C as [C _]. destruct C as (n & [] & _). lia.
  - destruct P as (ts & _ & ->). apply Exists_cons_hd, heard_says.
  - destruct P as (ts' & _ & ->). apply Exists_cons_hd, heard_says.
  - destruct P as (ts' & _ & ->). apply Exists_cons_hd, heard_says.
  - destruct P as (ts' & _ & ->). apply Exists_cons_hd, heard_says.
Qed.

Lemma c98_something : forall (U : Unicode) (R : Rust) (T : Terminal) (args : list str) (z : Z),
  ended (main args) = Ret z -> on_stdout (main args) <> [] \/ on_stderr (main args) <> [].
Proof.
  intros U R T args z E. destruct (unicode_args_dec args) as [Ha|Ha]; [|rewrite main_panic in E by exact Ha; discriminate].
  destruct (fate_all R args) as (ms & r & D & H). assert (Er : r = Ret z) by (rewrite main_run in E by exact Ha; cbn [ended] in E; now rewrite (D T) in E).
  apply (heard_main U R T args ms r Ha D). apply (fate_heard R) with (z := z) in H; [exact H|]. now rewrite Er.
Qed.
