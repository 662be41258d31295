(** * Pf_Told: proofs for P_Told *)
From Verif Require Import RustBase Addr BitManip Net Parse Console ShowNet Main Messages Process Spec SpecText SpecIO SpecShow SpecMain SpecProcess SpecTold Demo
  Bits Laws NetFacts Family TextFacts Utf8Facts Order Pf_Text Pf_Addr Pf_Net Pf_Netspec Pf_Minimize Pf_Derange Pf_Enum Pf_Resize Pf_Split Pf_Show Pf_Main Pf_Compose Pf_Runs Pf_Process Pf_Pipes.
From Coq Require Import ZifyBool ZifyNat ZifyN.
Ltac Zify.zify_post_hook ::= idtac.

Notation nl := "010"%char.

(** What is read of a mark, with and without colour support. *)
Definition said (c : bool) (m : mark) : str :=
  match m with
  | Frag _ s => if c then s else s ++ newline
  | Plain s => s
  | Problem _ => []
  end.
Definition txt (c : bool) (ms : list mark) : str := flat_map (said c) ms.

Lemma txt_app c ms ms' : txt c (ms ++ ms') = txt c ms ++ txt c ms'.
Proof. apply flat_map_app. Qed.

(** *** The bytes tell the text *)
Lemma bytes_text c ms ms' :
  Forall neat_event (map (paint c) ms) -> Forall neat_event (map (paint c) ms') ->
  flat_map to_stdout (map (paint c) ms) = flat_map to_stdout (map (paint c) ms') -> txt c ms = txt c ms'.
Proof.
  intros H H' E.
  assert (G : forall ms, txt c ms = map fst (flat_map drawn_event (map (paint c) ms))).
  { clear. intros ms. induction ms as [|m ms IH]; [reflexivity|]. cbn [txt flat_map map]. fold (txt c ms). rewrite IH, map_app. f_equal.
    destruct m; cbn [said paint]; [|cbn [drawn_event]; rewrite map_map; symmetry; apply map_id|reflexivity].
    destruct c; [|unfold line]; cbn [drawn_event]; rewrite map_map; symmetry; apply map_id. }
  rewrite !G. apply seen_events in H, H'. rewrite E in H. rewrite H' in H. injection H as ->. reflexivity.
Qed.

(** *** Fragments without line breaks *)
Definition nice (m : mark) : Prop := match m with Frag _ s => ~ In nl s | _ => False end.
Lemma prints_nl s : prints s -> ~ In nl s.
Proof. intros H I. unfold prints in H. rewrite Forall_forall in H. destruct (H _ I) as [C _]. now apply C. Qed.
Lemma nice_column (F : family) k (a : addr F) col : Forall nice (column k a col).
Proof.
  unfold column. apply Forall_forall. intros m Hm. apply in_flat_map in Hm. destruct Hm as (i & _ & [<-|Hm]).
  - cbn [nice]. intros I. apply in_map_iff in I. destruct I as (b & E & _). destruct b; discriminate E.
  - destruct (_ && _); [|destruct Hm]. destruct Hm as [<-|[]]. cbn [nice]. intros [E|[]]. destruct F; discriminate E.
Qed.
Lemma nice_true ms : Forall nice ms -> txt true ms = map fst (coloured ms).
Proof.
  intros H. induction H as [|m ms Hm H IH]; [reflexivity|]. cbn [txt coloured flat_map]. fold (txt true ms) (coloured ms).
  rewrite map_app, IH. f_equal. destruct m; try contradiction. cbn [said]. rewrite map_map. symmetry. apply map_id.
Qed.
Definition not_nl (x : ascii) : bool := negb (Ascii.eqb x nl).
Lemma filter_nl s : ~ In nl s -> filter not_nl s = s.
Proof.
  induction s as [|x s IH]; intros H; [reflexivity|]. cbn [filter In] in *. unfold not_nl at 1. destruct (Ascii.eqb_spec x nl) as [->|].
  - tauto.
  - cbn [negb]. f_equal. apply IH. tauto.
Qed.
Lemma nice_false ms : Forall nice ms -> filter not_nl (txt false ms) = map fst (coloured ms).
Proof.
  intros H. induction H as [|m ms Hm H IH]; [reflexivity|]. cbn [txt coloured flat_map]. fold (txt false ms) (coloured ms).
  rewrite map_app, filter_app, IH. f_equal. destruct m as [c s| |]; try contradiction. cbn [said nice] in *.
  rewrite filter_app, filter_nl by exact Hm. rewrite map_map, map_id. apply app_nil_r.
Qed.

(** *** The binary column *)
Lemma column_binary (F : family) k (a : addr F) col : k = 1%nat \/ k = 8%nat -> map fst (coloured (column k a col)) = binary_text a.
Proof. intros [->| ->]; [apply column_text1|apply column_text8]. Qed.
Lemma column_length (F : family) k (a : addr F) col : k = 1%nat \/ k = 8%nat ->
  List.length (txt false (column k a col)) =
  match F, k with V4, 1 => 70 | V4, _ => 42 | V6, 1 => 270 | V6, _ => 158 end%nat.
Proof.
  rewrite column_bits. unfold abits. generalize (value a). intros x. intros [->| ->]; destruct F; vm_compute; reflexivity.
Qed.
Lemma column_ninth4 (a : addr V4) col : nth_error (txt false (column 1 a col)) 16 = Some "."%char.
Proof. rewrite column_bits. unfold abits. generalize (value a). intros x. vm_compute. reflexivity. Qed.
Lemma column_ninth6 (a : addr V6) col : exists b, nth_error (txt false (column 1 a col)) 16 = Some (bit_char b).
Proof. rewrite column_bits. unfold abits. generalize (value a). intros x. eexists. vm_compute. reflexivity. Qed.
Lemma binary_end4 (a : addr V4) : nth_error (binary_text a) 26 = Some "."%char.
Proof. unfold binary_text, abits. generalize (value a). intros x. vm_compute. reflexivity. Qed.
Lemma binary_end6 (a : addr V6) : exists b, nth_error (binary_text a) 126 = Some (bit_char b).
Proof. unfold binary_text, abits. generalize (value a). intros x. eexists. vm_compute. reflexivity. Qed.
Lemma bit_no_dot b : bit_char b <> "."%char.
Proof. destruct b; discriminate. Qed.
Lemma binary_length (F : family) (a : addr F) : List.length (binary_text a) = match F with V4 => 35 | V6 => 135 end%nat.
Proof. unfold binary_text, abits. generalize (value a). intros x. destruct F; vm_compute; reflexivity. Qed.
Lemma binary_nl (F : family) (a : addr F) : ~ In nl (binary_text a).
Proof.
  rewrite <- (column_text1 F a (fun _ => White)). rewrite <- nice_true by apply nice_column. intros I.
  unfold txt in I. apply in_flat_map in I. destruct I as (m & Hm & I). pose proof (nice_column F 1 a (fun _ => White)) as H.
  rewrite Forall_forall in H. specialize (H m Hm). destruct m; contradiction.
Qed.

Lemma binary_inj (F : family) (a a' : addr F) (R : Rust) : valid a -> valid a' -> binary_text a = binary_text a' -> a = a'.
Proof.
  intros Ha Ha' E. destruct (c57_digits F a) as [D _]. destruct (c57_digits F a') as [D' _]. rewrite E, D' in D.
  assert (B : abits a = abits a').
  { revert D. generalize (abits a) (abits a'). clear. induction l as [|x l IH]; intros [|y l'] E; try discriminate; [reflexivity|].
    cbn [map] in E. injection E as E1 E2. f_equal; [destruct x, y; (reflexivity || discriminate)|now apply IH]. }
  rewrite !(abits_bts (R := R)) in B by assumption. apply bts_inj in B; [exact B|now apply valid_ok..].
Qed.

(** *** Rows *)
Lemma nl_split s : forall s' X X', ~ In nl s -> ~ In nl s' -> s ++ nl :: X = s' ++ nl :: X' -> s = s' /\ X = X'.
Proof.
  induction s as [|c s IH]; intros [|c' s'] X X' H H' E; cbn [app In] in *.
  - injection E as E. auto.
  - injection E as E1 E2. subst c'. tauto.
  - injection E as E1 E2. subst c. tauto.
  - injection E as -> E. destruct (IH s' X X') as [-> ->]; tauto.
Qed.
Lemma app_same_tail {A} (p p' b b' : list A) : List.length b = List.length b' -> p ++ b = p' ++ b' -> p = p' /\ b = b'.
Proof.
  intros L E. assert (Lp : List.length p = List.length p').
  { apply (f_equal (@List.length A)) in E. rewrite !app_length in E. lia. }
  revert p' Lp E. induction p as [|x p IH]; intros [|x' p'] Lp E; try discriminate; [auto|].
  cbn [app List.length] in *. injection E as -> E. destruct (IH p') as [-> ->]; auto; lia.
Qed.
Lemma app_same_head {A} (p p' b b' : list A) : List.length p = List.length p' -> p ++ b = p' ++ b' -> p = p' /\ b = b'.
Proof.
  revert p'. induction p as [|x p IH]; intros [|x' p'] Lp E; try discriminate; [auto|].
  cbn [app List.length] in *. injection E as -> E. destruct (IH p') as [-> ->]; auto; lia.
Qed.
Lemma prints_fill k s : prints s -> prints (fill k s).
Proof.
  intros H. unfold fill. apply prints_app; [exact H|]. apply Forall_forall. intros c Hc. apply repeat_spec in Hc. subst. split; discriminate.
Qed.

Definition row_of {F : family} (k : nat) (label text : str) (a : addr F) col : list mark :=
  headings (F := F) label text ++ column k a col ++ [break].
Lemma row_true (F : family) k label text (a : addr F) col : k = 1%nat \/ k = 8%nat ->
  txt true (row_of k label text a col) = (fill 11 label ++ fill (text_width F) text ++ binary_text a) ++ [nl].
Proof.
  intros Hk. unfold row_of. rewrite !txt_app, (nice_true (column k a col)) by apply nice_column. rewrite column_binary by exact Hk.
  cbn [headings txt flat_map said break newline]. rewrite app_nil_r, <- !app_assoc. reflexivity.
Qed.
Lemma row_false (F : family) k label text (a : addr F) col :
  txt false (row_of k label text a col) = fill 11 label ++ nl :: fill (text_width F) text ++ nl :: txt false (column k a col) ++ [nl].
Proof.
  unfold row_of. rewrite !txt_app. cbn [headings txt flat_map said break newline]. rewrite app_nil_r, <- !app_assoc. reflexivity.
Qed.

Lemma row_told (R : Rust) (F : family) c k label t t' (a a' : addr F) col col' X X' : k = 1%nat \/ k = 8%nat ->
  prints label -> prints t -> prints t' -> valid a -> valid a' ->
  txt c (row_of k label t a col) ++ X = txt c (row_of k label t' a' col') ++ X' -> a = a' /\ X = X'.
Proof.
  intros Hk Hl Ht Ht' Ha Ha' E.
  pose proof (prints_nl _ (prints_fill 11 label Hl)) as N1. pose proof (prints_nl _ (prints_fill (text_width F) t Ht)) as N2.
  pose proof (prints_nl _ (prints_fill (text_width F) t' Ht')) as N3.
  pose proof (binary_nl F a) as N4. pose proof (binary_nl F a') as N5.
  destruct c.
  - rewrite !row_true in E by exact Hk. rewrite <- !(app_assoc _ [nl]) in E. cbn [app] in E.
    apply nl_split in E; [|rewrite !in_app_iff; tauto..]. destruct E as [E ->]. split; [|reflexivity].
    rewrite !app_assoc in E. apply app_same_tail in E; [|now rewrite !binary_length]. now apply (binary_inj F a a' R).
  - rewrite !row_false in E. rewrite <- !app_assoc in E. cbn [app] in E. rewrite <- !app_assoc in E. cbn [app] in E. rewrite <- !app_assoc in E. cbn [app] in E.
    apply nl_split in E; [|assumption..]. destruct E as [_ E]. apply nl_split in E; [|assumption..]. destruct E as [_ E].
    apply app_same_head in E; [|now rewrite !column_length]. destruct E as [E E']. injection E' as ->. split; [|reflexivity].
    apply (binary_inj F a a' R); try assumption. rewrite <- (column_binary F k a col), <- (column_binary F k a' col') by exact Hk.
    rewrite <- !nice_false by apply nice_column. now rewrite E.
Qed.

Lemma families_told c label t t' (a : addr V4) (a' : addr V6) col col' X X' :
  prints label -> prints t -> prints t' ->
  txt c (row_of 1 label t a col) ++ X = txt c (row_of 1 label t' a' col') ++ X' -> False.
Proof.
  intros Hl Ht Ht' E.
  pose proof (prints_nl _ (prints_fill 11 label Hl)) as N1. pose proof (prints_nl _ (prints_fill (text_width V4) t Ht)) as N2.
  pose proof (prints_nl _ (prints_fill (text_width V6) t' Ht')) as N3.
  pose proof (binary_nl V4 a) as N4. pose proof (binary_nl V6 a') as N5.
  destruct c.
  - rewrite !row_true in E by now left. rewrite <- !(app_assoc _ [nl]) in E. cbn [app] in E.
    apply nl_split in E; [|rewrite !in_app_iff; tauto..]. destruct E as [E _]. rewrite !app_assoc in E.
    set (P := fill 11 label ++ fill (text_width V4) t) in *. set (P' := fill 11 label ++ fill (text_width V6) t') in *.
    assert (L : (List.length P = List.length P' + 100)%nat).
    { apply (f_equal (@List.length ascii)) in E. rewrite !app_length, !binary_length in E. lia. }
    apply (f_equal (fun l => nth_error l (List.length P + 26)%nat)) in E.
    rewrite (nth_error_app2 P) in E by lia. rewrite (nth_error_app2 P') in E by lia.
    replace (List.length P + 26 - List.length P)%nat with 26%nat in E by lia.
    replace (List.length P + 26 - List.length P')%nat with 126%nat in E by lia.
    destruct (binary_end6 a') as (b & Eb). rewrite binary_end4, Eb in E. injection E as E. now apply (bit_no_dot b).
  - rewrite !row_false in E. rewrite <- !app_assoc in E. cbn [app] in E. rewrite <- !app_assoc in E. cbn [app] in E. rewrite <- !app_assoc in E. cbn [app] in E.
    apply nl_split in E; [|assumption..]. destruct E as [_ E]. apply nl_split in E; [|assumption..]. destruct E as [_ E].
    apply (f_equal (fun l => nth_error l 16%nat)) in E.
    rewrite !nth_error_app1 in E by (rewrite column_length by (now left); lia).
    destruct (column_ninth6 a' col') as (b & Eb). rewrite column_ninth4, Eb in E. injection E as E. now apply (bit_no_dot b).
Qed.

(** *** Reports *)
Lemma report_rows (R : Rust) (F : family) (n : net F) a ho bc k cl : exists rest,
  report n (Some a) ho bc k cl =
  row_of 1 (lit "Address:") (display a) a (bit_colour a (subnet_mask n) false) ++
  row_of 8 (lit "Netmask:") (match cidr_prefix n with
          | Some p => display (subnet_mask n) ++ lit " = " ++ fmt_dec p
          | None => display (subnet_mask n)
          end) (subnet_mask n) (fun _ => Red) ++ rest.
Proof.
  unfold report, masked_row, row, row_of. eexists. rewrite <- !app_assoc. reflexivity.
Qed.
Lemma prints_mask (R : Rust) (F : family) (n : net F) :
  prints (match cidr_prefix n with
          | Some p => display (subnet_mask n) ++ lit " = " ++ fmt_dec p
          | None => display (subnet_mask n)
          end).
Proof.
  destruct (cidr_prefix n); [|apply prints_addr]. apply prints_app; [apply prints_addr|]. apply prints_app; [now apply printable_check|apply prints_dec].
Qed.

Lemma means_member F s (a : addr F) n : means F s a n -> member n a.
Proof. intros (A & w & M & mask & _ & _ & _ & _ & Hn). apply Hn. Qed.

Lemma same_of (R : Rust) F s s' (a : addr F) n : means F s a n -> means F s' a n -> same_meaning s s'.
Proof.
  intros M M' G b m. split; intros H.
  - apply (means_once R F G s a n b m (fun G b m => means G s' b m) M H M').
  - apply (means_once R F G s' a n b m (fun G b m => means G s b m) M' H M).
Qed.

Lemma report_told (R : Rust) c F F' s s' (a : addr F) (n : net F) (a' : addr F') (n' : net F') ms ms' X X' :
  means F s a n -> means F' s' a' n' -> described n (Some a) ms -> described n' (Some a') ms' ->
  txt c ms ++ X = txt c ms' ++ X' -> same_meaning s s' /\ ms = ms' /\ X = X'.
Proof.
  intros M M' D D' E. pose proof D as (ho & bc & k & cl & _ & _ & _ & _ & Ems). pose proof D' as (ho' & bc' & k' & cl' & _ & _ & _ & _ & Ems').
  destruct (report_rows R F n a ho bc k cl) as (r & Er). destruct (report_rows R F' n' a' ho' bc' k' cl') as (r' & Er').
  destruct (means_wf R F s a n M) as [Va Wn]. destruct (means_wf R F' s' a' n' M') as [Va' Wn'].
  assert (Hl : prints (lit "Address:")) by now apply printable_check. assert (Hl2 : prints (lit "Netmask:")) by now apply printable_check.
  assert (G : F = F').
  { rewrite Ems, Ems', Er, Er', !txt_app, <- !app_assoc in E. destruct F, F'; try reflexivity; exfalso.
    - eapply families_told; [| | |exact E]; [exact Hl|apply prints_addr..].
    - eapply families_told; [| | |symmetry; exact E]; [exact Hl|apply prints_addr..]. }
  subst F'.
  assert (S : a = a' /\ subnet_mask n = subnet_mask n').
  { rewrite Ems, Ems', Er, Er', !txt_app, <- !app_assoc in E.
    apply (row_told R) in E; [|now left|exact Hl|apply prints_addr|apply prints_addr|assumption..]. destruct E as [-> E]. split; [reflexivity|].
    apply (row_told R) in E; [|now right|exact Hl2|apply prints_mask|apply prints_mask|now apply wf_mask..]. apply E. }
  destruct S as [<- Em]. assert (n = n') as <-.
  { apply (network_of_unique F n n' a (value (subnet_mask n))); (split; [assumption|]); (split; [now rewrite ?Em|]); eapply means_member; eassumption. }
  split; [now apply (same_of R F s s' a n)|]. assert (ms = ms') as <- by (now apply (c67_described_once R F n (Some a))). split; [reflexivity|].
  now apply app_inv_head in E.
Qed.

Lemma spaced_told (R : Rust) c ss mss : forall ss' mss',
  Forall2 (fun s ms => exists F (a : addr F) n, means F s a n /\ described n (Some a) ms) ss mss ->
  Forall2 (fun s ms => exists F (a : addr F) n, means F s a n /\ described n (Some a) ms) ss' mss' ->
  ss <> [] -> ss' <> [] ->
  txt c (spaced mss) = txt c (spaced mss') -> Forall2 same_meaning ss ss'.
Proof.
  intros ss' mss' H. revert ss' mss'. induction H as [|s ms ss mss (F & a & n & M & D) H IH]; intros ss' mss' H' N N' E; [congruence|].
  destruct H' as [|s' ms' ss' mss' (F' & a' & n' & M' & D') H']; [congruence|].
  cbn [spaced] in E. rewrite !txt_app in E. apply (report_told R c F F' s s' a n a' n' ms ms' _ _ M M' D D') in E.
  destruct E as (S & -> & E). constructor; [exact S|].
  destruct H as [|t mt ss mss Ht H]; destruct H' as [|t' mt' ss' mss' Ht' H']; try discriminate; [constructor|].
  apply (IH (t' :: ss') (mt' :: mss')); try discriminate; [now constructor|].
  change (nl :: txt c (spaced (mt :: mss)) = nl :: txt c (spaced (mt' :: mss'))) in E. now injection E.
Qed.

Lemma spaced_same (R : Rust) ss mss ss' mss' : Forall2 same_meaning ss ss' ->
  Forall2 (fun s ms => exists F (a : addr F) n, means F s a n /\ described n (Some a) ms) ss mss ->
  Forall2 (fun s ms => exists F (a : addr F) n, means F s a n /\ described n (Some a) ms) ss' mss' -> mss = mss'.
Proof.
  intros S. revert mss mss'. induction S as [|s s' ss ss' Hs S IH]; intros mss mss' H H'; inversion H as [|? ms ? mss0 Hd HA]; inversion H' as [|? ms' ? mss1 Hd' HB]; subst; [reflexivity|].
  f_equal; [|now apply IH]. destruct Hd as (F & a & n & M & D). destruct Hd' as (F' & a' & n' & M' & D').
  apply Hs in M. revert D'. apply (means_once R F F' s' a n a' n' (fun G b m => @described R G m (Some b) ms' -> ms = ms') M M').
  intros D'. apply (c67_described_once R F n (Some a)); try assumption. eapply (means_wf R); exact M.
Qed.

Lemma request_unicode (R : Rust) ss : (forall s, In s ss -> ~ nonsense s) -> Forall unicode ss.
Proof.
  intros H. apply Forall_forall. intros s Hs. destruct (sensible R s (H s Hs)) as (F & a & n & _ & M). exact (means_unicode F s a n M).
Qed.

Lemma show_bytes (U : Unicode) (R : Rust) (T : Terminal) prog ss : unicode prog -> show_request ss ->
  exists mss,
    Forall2 (fun s ms => exists F (a : addr F) n, means F s a n /\ described n (Some a) ms) ss mss /\
    on_stdout (main (prog :: ss)) = flat_map to_stdout (map (paint colors_enabled) (spaced mss)) /\
    Forall neat_event (map (paint colors_enabled) (spaced mss)) /\ ended (main (prog :: ss)) = Ret 0%Z.
Proof.
  intros Hp (Hne & Hw & Hs). destruct (c62_show R prog ss Hne Hw Hs) as (mss & D & X). exists mss. split; [exact D|].
  assert (Hu : Forall unicode (prog :: ss)) by (constructor; [exact Hp|now apply (request_unicode R)]).
  pose proof (neat_do_main R T _ Hu) as Hn. unfold neat in Hn. rewrite main_run by exact Hu. rewrite (X T) in *. cbn [fst snd on_stdout ended] in *. auto.
Qed.

Lemma c77_told : forall (U : Unicode) (R R' : Rust) (T : Terminal) (prog prog' : str) (ss ss' : list str),
  unicode prog -> unicode prog' -> show_request ss -> show_request ss' ->
  (on_stdout (@main U R T (prog :: ss)) = on_stdout (@main U R' T (prog' :: ss')) <-> Forall2 same_meaning ss ss').
Proof.
  intros U R R' T prog prog' ss ss' Hp Hp' Hr Hr'.
  destruct (show_bytes U R T prog ss Hp Hr) as (mss & D & E & Hn & Z).
  destruct (show_bytes U R T prog' ss' Hp' Hr') as (mss' & D' & E' & Hn' & Z').
  assert (S : on_stdout (@main U R' T (prog' :: ss')) = on_stdout (@main U R T (prog' :: ss'))).
  { apply (c74_same_stdout U R R' T (prog' :: ss') 0%Z Z'). intros p w s ts cs Eq Hin. exfalso. injection Eq as _ ->.
    destruct Hr' as (_ & Hw & _). apply (Hw w eq_refl). unfold command_words. rewrite !in_app_iff. tauto. }
  rewrite S, E, E'. split.
  - intros B. apply bytes_text in B; [|assumption..]. apply (spaced_told R colors_enabled ss mss ss' mss' D D'); [apply Hr|apply Hr'|exact B].
  - intros H. now rewrite (spaced_same R ss mss ss' mss' H D D').
Qed.

Lemma c77_told_ex :
  let out s := on_stdout (@main no_unicode debug_env plain [lit "ripcalc"; s]) in
  out (lit "10.0.0.1/8") = out (lit "010.0.0.1/255.0.0.0") /\ out (lit "10.0.0.1/8") <> out (lit "10.0.0.1/9").
Proof.
  cbv zeta. split; [vm_compute; reflexivity|]. intros E. apply (f_equal (fun l => nth_error l 121%nat)) in E. revert E. vm_compute. congruence.
Qed.

(** ** Texts of networks *)
Lemma display_inj (R : Rust) (F : family) (a b : addr F) : valid a -> valid b -> display a = display b -> a = b.
Proof.
  destruct F; [|exact (c04_injective a b)]. intros Ha Hb E. change (v4_display a = v4_display b) in E.
  pose proof (c02_roundtrip a Ha) as Ra. rewrite E, (c02_roundtrip b Hb) in Ra. now injection Ra.
Qed.
Lemma decimal_in s c : decimal s -> In c s -> In c (lit "0123456789").
Proof. intros [_ H]. rewrite Forall_forall in H. apply H. Qed.
Lemma dotted_in s c : dotted s -> In c s -> In c (lit "0123456789.").
Proof.
  intros (t0 & t1 & t2 & t3 & D0 & D1 & D2 & D3 & ->) I.
  assert (G : forall t, decimal t -> In c t -> In c (lit "0123456789.")).
  { intros t D J. apply (decimal_in t c D) in J. change (lit "0123456789.") with (lit "0123456789" ++ lit "."). apply in_or_app. now left. }
  repeat (apply in_app_or in I; destruct I as [I|[<-|I]]; [now apply (G _) in I|cbn; tauto|]). now apply (G t3).
Qed.
Lemma display_chars (R : Rust) (F : family) (a : addr F) : valid a ->
  ~ In "/"%char (display a) /\
  match F with
  | V4 => In "."%char (display a) /\ ~ In ":"%char (display a)
  | V6 => In ":"%char (display a) /\ ~ In "."%char (display a)
  end.
Proof.
  intros Ha. pose proof (display_shape R F a Ha) as S. destruct F; cbn [mask_shape] in S.
  - assert (C : forall c, In c (display a) -> In c (lit "0123456789.")) by (intros c; now apply dotted_in).
    split; [intros I; apply C in I; revert I; vm_compute; intuition discriminate|]. split; [|intros I; apply C in I; revert I; vm_compute; intuition discriminate].
    destruct S as (t0 & t1 & t2 & t3 & _ & _ & _ & _ & ->). apply in_or_app. right. now left.
  - destruct S as [S I]. unfold hexcolon in S. rewrite Forall_forall in S.
    split; [intros J; apply S in J; revert J; vm_compute; intuition discriminate|]. split; [exact I|].
    intros J; apply S in J; revert J; vm_compute; intuition discriminate.
Qed.
Lemma slash_split s : forall s' X X', ~ In "/"%char s -> ~ In "/"%char s' -> s ++ "/"%char :: X = s' ++ "/"%char :: X' -> s = s' /\ X = X'.
Proof.
  induction s as [|c s IH]; intros [|c' s'] X X' H H' E; cbn [app In] in *.
  - injection E as E. auto.
  - injection E as E1 E2. subst c'. tauto.
  - injection E as E1 E2. subst c. tauto.
  - injection E as -> E. destruct (IH s' X X') as [-> ->]; tauto.
Qed.
Lemma dec_inj x y : fmt_dec x = fmt_dec y -> x = y.
Proof.
  intros E. assert (rdx 10) as R10 by now left. pose proof (fmt_radix_usual 10 x R10) as [H _]. pose proof (fmt_radix_usual 10 y R10) as [H' _].
  unfold fmt_dec in E. rewrite E, H' in H. now injection H.
Qed.
Lemma dec_chars x c : In c (fmt_dec x) -> In c (lit "0123456789").
Proof. intros I. apply (decimal_in (fmt_dec x)); [|exact I]. apply (numeral_decimal _ x). apply fmt_radix_usual. now left. Qed.

Lemma c77_text : forall (R : Rust) (F : family) (n n' : net F),
  wf_net n -> wf_net n' -> net_display n = net_display n' -> n = n'.
Proof.
  intros R F n n' W W' E. rewrite !net_display_text in E. unfold spec_text in E. cbn [app] in E.
  apply slash_split in E; [|now apply (display_chars R F), wf_base..]. destruct E as [E1 E2].
  apply display_inj in E1; [|now apply wf_base..].
  assert (Em : subnet_mask n = subnet_mask n').
  { assert (D : forall (m : addr F) x, valid m -> display m <> fmt_dec x).
    { intros m x Vm Em. destruct (display_chars R F m Vm) as [_ C]. rewrite Em in C. destruct F, C as [C _]; apply dec_chars in C; revert C; vm_compute; intuition discriminate. }
    destruct (cidr_prefix n) as [p|] eqn:P, (cidr_prefix n') as [p'|] eqn:P'.
    - apply dec_inj in E2. subst p'. apply (wf_prefix _ W) in P. apply (wf_prefix _ W') in P'. destruct P as [_ P], P' as [_ P'].
      apply (value_inj (R := R)); [now apply wf_mask..|congruence].
    - symmetry in E2. now apply D in E2; [|apply wf_mask].
    - now apply D in E2; [|apply wf_mask].
    - apply display_inj in E2; [exact E2|now apply wf_mask..]. }
  apply (network_of_unique F n n' (base_addr n) (value (subnet_mask n))).
  - split; [exact W|]. split; [reflexivity|apply member_base].
  - split; [exact W'|]. split; [now rewrite Em|]. rewrite E1. apply member_base.
Qed.

Lemma c77_text_families : forall (R : Rust) (n : net V4) (n' : net V6),
  wf_net n -> wf_net n' -> @net_display (addr V4) (@addr_ops R V4) n <> @net_display (addr V6) (@addr_ops R V6) n'.
Proof.
  intros R n n' W W' E. rewrite (net_display_text R V4 n), (net_display_text R V6 n') in E. unfold spec_text in E. cbn [app] in E.
  destruct (display_chars R V4 (base_addr n) (wf_base _ W)) as (A1 & A2 & _). destruct (display_chars R V6 (base_addr n') (wf_base _ W')) as (B1 & _ & B3).
  apply slash_split in E; [|assumption..]. destruct E as [E _]. apply B3. rewrite <- E. exact A2.
Qed.

(** ** Families of texts *)
Lemma means_family (R : Rust) F G s (a : addr F) n (b : addr G) m : means F s a n -> means G s b m -> F = G.
Proof. intros H H'. exact (means_once R F G s a n b m (fun G _ _ => F = G) H H' eq_refl). Qed.
Lemma means_same (R : Rust) F s (a : addr F) n b m : means F s a n -> means F s b m -> a = b /\ n = m.
Proof. intros H H'. apply (parse_means R) in H, H'. rewrite H in H'. injection H' as H'. now apply spec_of_inj_same. Qed.
Lemma family_eq_dec (F G : family) : {F = G} + {F <> G}.
Proof. decide equality. Qed.

Lemma choose_family F ss : Forall (of_family F) ss -> exists l : list (addr F * net F), Forall2 (fun s an => means F s (fst an) (snd an)) ss l.
Proof.
  intros H. destruct (choose_means F (fun _ => True) ss) as (l & Hl & _); [|now exists l].
  eapply Forall_impl; [|exact H]. intros s (a & n & M). now exists a, n.
Qed.
Lemma covered_list (R : Rust) F ss (l : list (addr F * net F)) (c : addr F) : Forall2 (fun s an => means F s (fst an) (snd an)) ss l ->
  (covered ss c <-> exists n, In n (map snd l) /\ member n c).
Proof.
  intros H. unfold covered. induction H as [|s [a n] ss l Hs H IH]; cbn [map In snd fst] in *.
  - split; [intros (s & a & n & [] & _)|intros (n & [] & _)].
  - split.
    + intros (t & b & m & [<-|I] & M & Hc).
      * destruct (means_same R F s a n b m Hs M) as [_ <-]. exists n. auto.
      * destruct (proj1 IH) as (e & He & Hm); [now exists t, b, m|]. exists e. auto.
    + intros (e & [<-|I] & Hc); [exists s, a, n; auto|]. destruct (proj2 IH) as (t & b & m & It & M & Hm); [now exists e|]. exists t, b, m. auto.
Qed.
Lemma covered_family (R : Rust) F G ss (c : addr G) : Forall (of_family F) ss -> covered ss c -> G = F.
Proof.
  intros H (s & a & n & I & M & _). rewrite Forall_forall in H. destruct (H s I) as (b & m & M'). exact (means_family R G F s a n b m M M').
Qed.
Lemma list_wf (R : Rust) F ss (l : list (addr F * net F)) : Forall2 (fun s an => means F s (fst an) (snd an)) ss l -> Forall wf_net (map snd l).
Proof. intros M. induction M as [|s an ss l Hs M IH]; [constructor|]. cbn [map]. constructor; [apply (means_wf R F s _ _ Hs)|exact IH]. Qed.
Lemma family_unicode F ss : Forall (of_family F) ss -> Forall unicode ss.
Proof. intros H. eapply Forall_impl; [|exact H]. intros s (a & n & M). now apply means_unicode in M. Qed.

Lemma lines_inj ts ts' : Forall prints ts -> Forall prints ts' -> lines ts = lines ts' -> ts = ts'.
Proof.
  intros H H' E. apply (f_equal text_lines) in E. rewrite !read_lines in E; [exact E| |]; (eapply Forall_impl; [exact prints_line|assumption]).
Qed.
Lemma prints_nets (R : Rust) F (r : list (net F)) : Forall prints (map net_display r).
Proof. apply Forall_map, Forall_forall. intros n _. apply (prints_net R). Qed.
Lemma nets_text (R : Rust) F (r r' : list (net F)) : Forall wf_net r -> Forall wf_net r' -> map net_display r = map net_display r' -> r = r'.
Proof.
  intros H. revert r'. induction H as [|n r Hn H IH]; intros r' H' E; destruct H' as [|n' r' Hn' H']; try discriminate; [reflexivity|].
  cbn [map] in E. injection E as E1 E2. f_equal; [now apply (c77_text R F)|now apply IH].
Qed.
Lemma nets_family (R : Rust) F F' (r : list (net F)) (r' : list (net F')) : Forall wf_net r -> Forall wf_net r' -> r <> [] ->
  map (@net_display (addr F) (@addr_ops R F)) r = map (@net_display (addr F') (@addr_ops R F')) r' -> F = F'.
Proof.
  intros H H' Hne E. destruct H as [|n r Hn H]; [congruence|]. destruct H' as [|n' r' Hn' H']; [discriminate|].
  cbn [map] in E. injection E as E _. destruct F, F'; try reflexivity; exfalso; [|symmetry in E]; now apply (c77_text_families R) in E.
Qed.

(** ** Minimizing *)
Lemma minimize_silent (U : Unicode) (R : Rust) (T : Terminal) F prog w ss (l : list (addr F * net F)) :
  unicode prog -> In w minimize_words -> ss <> [] -> Forall2 (fun s an => means F s (fst an) (snd an)) ss l ->
  exists r, minimize_subnets (map snd l) = Ret r /\ main (prog :: w :: ss) = silent (map (@net_display (addr F) (@addr_ops R F)) r).
Proof.
  intros Hp Hw Hne M. destruct (c62_minimize R F prog w ss l Hw Hne M) as (r & E & D). exists r. split; [exact E|].
  rewrite <- lines_says in D. apply does_main; [exact D|]. constructor; [exact Hp|]. constructor; [now apply (word_unicode minimize_words)|].
  apply (family_unicode F). clear -M. induction M as [|s an ss l Hs M IH]; constructor; [now exists (fst an), (snd an)|exact IH].
Qed.

Lemma c77_minimize : forall (U : Unicode) (R R' : Rust) (T T' : Terminal) (F F' : family) (prog prog' w w' : str) (ss ss' : list str),
  unicode prog -> unicode prog' -> In w minimize_words -> In w' minimize_words -> ss <> [] -> ss' <> [] ->
  Forall (of_family F) ss -> Forall (of_family F') ss' ->
  on_stdout (@main U R T (prog :: w :: ss)) = on_stdout (@main U R' T' (prog' :: w' :: ss')) ->
  forall G (c : addr G), valid c -> (covered ss c <-> covered ss' c).
Proof.
  intros U R R' T T' F F' prog prog' w w' ss ss' Hp Hp' Hw Hw' Hne Hne' Hf Hf' E.
  destruct (choose_family F ss Hf) as (l & M). destruct (choose_family F' ss' Hf') as (l' & M').
  destruct (minimize_silent U R T F prog w ss l Hp Hw Hne M) as (r & Er & Es).
  destruct (minimize_silent U R' T' F' prog' w' ss' l' Hp' Hw' Hne' M') as (r' & Er' & Es').
  rewrite Es, Es' in E. cbn [silent on_stdout] in E.
  assert (Ee : map (@net_display (addr F') (@addr_ops R' F')) r' = map (@net_display (addr F') (@addr_ops R F')) r') by (apply map_ext; intros n; apply net_display_env).
  rewrite Ee in E. apply lines_inj in E; [|apply prints_nets..]. clear Es Es' Ee.
  pose proof (list_wf R F ss l M) as Wl. pose proof (list_wf R F' ss' l' M') as Wl'.
  destruct (c39_same_addresses R F _ Wl) as (q & Eq & C). rewrite Er in Eq. injection Eq as <-.
  destruct (c39_same_addresses R' F' _ Wl') as (q' & Eq' & C'). rewrite Er' in Eq'. injection Eq' as <-.
  destruct (c40_returns R F _ Wl) as (q & Eq & Wr). rewrite Er in Eq. injection Eq as <-.
  destruct (c40_returns R' F' _ Wl') as (q' & Eq' & Wr'). rewrite Er' in Eq'. injection Eq' as <-.
  assert (Hr : r <> []).
  { intros ->. destruct M as [|s an ss l Hs M]; [congruence|]. pose proof (Forall_inv Wl) as Wn. cbn [map snd] in Wn.
    destruct (proj2 (C (base_addr (snd an)) (wf_base _ Wn))) as (n & [] & _). exists (snd an). split; [now left|apply member_base]. }
  assert (F = F') as <- by now apply (nets_family R F F' r r'). apply (nets_text R F) in E; [|assumption..]. subst r'.
  intros G c Vc. destruct (family_eq_dec G F) as [->|HG].
  - rewrite (covered_list R F ss l c M), (covered_list R F ss' l' c M'), <- (C c Vc), <- (C' c Vc). reflexivity.
  - split; intros H; [apply (covered_family R F) in H|apply (covered_family R F) in H]; congruence.
Qed.

Lemma cidr_family F ss : cidr_texts F ss -> Forall (of_family F) ss.
Proof. intros [_ H]. eapply Forall_impl; [|exact H]. intros s (a & n & p & M & _). now exists a, n. Qed.
Lemma some_covered F ss : cidr_texts F ss -> exists c : addr F, valid c /\ covered ss c.
Proof.
  intros [Hne H]. destruct H as [|s ss (a & n & p & M & [W _]) H]; [congruence|]. exists (base_addr n). split; [now apply wf_base|].
  exists s, a, n. split; [now left|]. split; [exact M|apply member_base].
Qed.

Lemma c77_minimize_cidr : forall (U : Unicode) (R R' : Rust) (T T' : Terminal) (F F' : family) (prog prog' w w' : str) (ss ss' : list str),
  unicode prog -> unicode prog' -> In w minimize_words -> In w' minimize_words -> cidr_texts F ss -> cidr_texts F' ss' ->
  (on_stdout (@main U R T (prog :: w :: ss)) = on_stdout (@main U R' T' (prog' :: w' :: ss')) <->
   forall G (c : addr G), valid c -> (covered ss c <-> covered ss' c)).
Proof.
  intros U R R' T T' F F' prog prog' w w' ss ss' Hp Hp' Hw Hw' Hc Hc'. pose proof (cidr_family F ss Hc) as Hf. pose proof (cidr_family F' ss' Hc') as Hf'.
  split; [apply (c77_minimize U R R' T T' F F'); try assumption; [apply Hc|apply Hc']|]. intros Same.
  assert (F = F') as <-.
  { destruct (some_covered F ss Hc) as (c & Vc & C). apply Same in C; [|exact Vc]. exact (covered_family R F' F ss' c Hf' C). }
  destruct Hc as [Hne Hc], Hc' as [Hne' Hc'].
  destruct (choose_means F (fun n => exists p, is_cidr n p) ss) as (l & M & Hl).
  { eapply Forall_impl; [|exact Hc]. intros s (a & n & p & Ms & Hn). exists a, n. split; [exact Ms|now exists p]. }
  destruct (choose_means F (fun n => exists p, is_cidr n p) ss') as (l' & M' & Hl').
  { eapply Forall_impl; [|exact Hc']. intros s (a & n & p & Ms & Hn). exists a, n. split; [exact Ms|now exists p]. }
  destruct (minimize_silent U R T F prog w ss l Hp Hw Hne M) as (r & Er & Es).
  destruct (minimize_silent U R' T' F prog' w' ss' l' Hp' Hw' Hne' M') as (r' & Er' & Es').
  rewrite (c43_canonical R R' F (map snd l) (map snd l') Hl Hl') in Er'.
  - rewrite Er in Er'. injection Er' as <-. rewrite Es, Es'. cbn [silent on_stdout]. apply (f_equal lines). apply map_ext. intros n. apply net_display_env.
  - intros c Vc. rewrite <- (covered_list R F ss l c M), <- (covered_list R F ss' l' c M'). symmetry. now apply Same.
Qed.

Lemma c77_inclusion : forall (U : Unicode) (R R' : Rust) (T T' : Terminal) (F : family) (prog prog' w w' : str) (ss ss' : list str),
  unicode prog -> unicode prog' -> In w minimize_words -> In w' minimize_words -> cidr_texts F ss -> cidr_texts F ss' ->
  (on_stdout (@main U R T (prog :: w :: ss ++ ss')) = on_stdout (@main U R' T' (prog' :: w' :: ss')) <->
   forall c : addr F, valid c -> covered ss c -> covered ss' c).
Proof.
  intros U R R' T T' F prog prog' w w' ss ss' Hp Hp' Hw Hw' Hc Hc'.
  assert (Ha : cidr_texts F (ss ++ ss')).
  { destruct Hc as [Hne Hc], Hc' as [Hne' Hc']. split; [destruct ss; [congruence|discriminate]|]. apply Forall_app. now split. }
  rewrite (c77_minimize_cidr U R R' T T' F F prog prog' w w' (ss ++ ss') ss') by assumption.
  assert (A : forall G (c : addr G), covered (ss ++ ss') c <-> covered ss c \/ covered ss' c).
  { intros G c. unfold covered. split.
    - intros (s & a & n & I & H). apply in_app_or in I. destruct I as [I|I]; [left|right]; now exists s, a, n.
    - intros [(s & a & n & I & H)|(s & a & n & I & H)]; exists s, a, n; (split; [apply in_or_app; tauto|exact H]). }
  split.
  - intros S c Vc C. apply (S F c Vc). apply A. now left.
  - intros S G c Vc. rewrite A. split; [|tauto]. intros [C|C]; [|exact C].
    assert (G = F) as -> by exact (covered_family R F G ss c (cidr_family F ss Hc) C). now apply S.
Qed.

(** ** Listing *)
Lemma enumerate_silent (U : Unicode) (R : Rust) (T : Terminal) F prog w s (a : addr F) (n : net F) :
  unicode prog -> In w enumerate_words -> means F s a n ->
  exists l, (forall x, In x l <-> valid x /\ member n x) /\ StronglySorted (fun x y : addr F => value x < value y) l /\
    main [prog; w; s] = silent (map (@display (addr F) (@addr_ops R F)) l).
Proof.
  intros Hp Hw M. destruct (c62_enumerate R prog w [s] Hw) as (mss & z & H & Hz & D); [discriminate|].
  inversion H as [|? ms ? mss' Hs H0]; subst. inversion H0; subst. cbn [List.concat] in D. rewrite app_nil_r in D.
  assert (z = 0%Z) as ->.
  { destruct Hz as [[-> _]|[_ (t & [<-|[]] & Ns)]]; [reflexivity|]. now apply Ns in M. }
  destruct Hs as [(G & b & m & l & M' & Hi & Hl & ->)|(Ns & _)]; [|now apply Ns in M].
  assert (F = G) as <- by exact (means_family R F G s a n b m M M'). destruct (means_same R F s a n b m M M') as [<- <-].
  exists l. split; [exact Hi|]. split; [exact Hl|]. rewrite <- lines_says in D. apply does_main; [exact D|].
  constructor; [exact Hp|]. constructor; [now apply (word_unicode enumerate_words)|]. constructor; [now apply means_unicode in M|constructor].
Qed.
Lemma same_network_of (R : Rust) F s s' (a a' : addr F) n : means F s a n -> means F s' a' n -> same_network s s'.
Proof.
  intros M M' G m. split; intros (b & H).
  - assert (F = G) as <- by exact (means_family R F G s a n b m M H). destruct (means_same R F s a n b m M H) as [_ <-]. now exists a'.
  - assert (F = G) as <- by exact (means_family R F G s' a' n b m M' H). destruct (means_same R F s' a' n b m M' H) as [_ <-]. now exists a.
Qed.

Lemma c77_enumerate : forall (U : Unicode) (R R' : Rust) (T T' : Terminal) (F F' : family) (prog prog' w w' s s' : str),
  unicode prog -> unicode prog' -> In w enumerate_words -> In w' enumerate_words -> of_family F s -> of_family F' s' ->
  (on_stdout (@main U R T [prog; w; s]) = on_stdout (@main U R' T' [prog'; w'; s']) <-> same_network s s').
Proof.
  intros U R R' T T' F F' prog prog' w w' s s' Hp Hp' Hw Hw' (a & n & M) (a' & n' & M').
  destruct (enumerate_silent U R T F prog w s a n Hp Hw M) as (l & Hi & Hs & E).
  destruct (enumerate_silent U R' T' F' prog' w' s' a' n' Hp' Hw' M') as (l' & Hi' & Hs' & E').
  destruct (means_wf R F s a n M) as [_ W]. destruct (means_wf R F' s' a' n' M') as [_ W'].
  rewrite E, E'. cbn [silent on_stdout]. split.
  - intros L. assert (Ee : map (@display (addr F') (@addr_ops R' F')) l' = map (@display (addr F') (@addr_ops R F')) l') by (apply map_ext; intros x; apply display_env).
    rewrite Ee in L. clear Ee. apply lines_inj in L; [|apply Forall_map, Forall_forall; intros x _; apply (prints_addr R)..].
    assert (I : In (base_addr n) l) by (apply Hi; split; [now apply wf_base|apply member_base]).
    assert (F = F') as <-.
    { destruct l as [|x l]; [destruct I|]. destruct l' as [|x' l']; [discriminate|]. cbn [map] in L. injection L as L _.
      destruct (display_chars R F x) as [_ C]; [now apply Hi; left|]. destruct (display_chars R F' x') as [_ C']; [now apply Hi'; left|].
      rewrite L in C. clear -C C'. destruct F, F'; tauto. }
    assert (l = l') as <-.
    { assert (V : Forall valid l) by (apply Forall_forall; intros x Hx; now apply Hi in Hx). assert (V' : Forall valid l') by (apply Forall_forall; intros x Hx; now apply Hi' in Hx).
      clear -R L V V'. revert l' V' L. induction V as [|x l Vx V IH]; intros l' V' L; destruct V' as [|x' l' Vx' V']; try discriminate; [reflexivity|].
      cbn [map] in L. injection L as L1 L2. f_equal; [now apply (display_inj R F)|now apply IH]. }
    assert (n = n') as <-.
    { apply (c21_extensionality R F); try assumption. intros x Vx. specialize (Hi x). specialize (Hi' x). tauto. }
    now apply (same_network_of R F s s' a a' n).
  - intros S. destruct (proj1 (S F n)) as (b & Mb); [now exists a|]. assert (F = F') as <- by exact (means_family R F F' s' b n a' n' Mb M').
    destruct (means_same R F s' b n a' n' Mb M') as [_ <-]. apply (f_equal lines).
    assert (l' = l) as ->.
    { apply (strictly_sorted_ext (fun x y : addr F => value x < value y)); [intros; lia|intros; lia|assumption|assumption|]. intros x. now rewrite Hi, Hi'. }
    apply map_ext. intros x. apply display_env.
Qed.

(** ** Ranges *)
Lemma c77_derange : forall (U : Unicode) (R R' : Rust) (T T' : Terminal) (F F' : family) (prog prog' w w' s t s' t' : str) (lo hi lo' hi' : N),
  unicode prog -> unicode prog' -> In w derange_words -> In w' derange_words ->
  spans s t F lo hi -> spans s' t' F' lo' hi' -> hi <> top F -> hi' <> top F' ->
  (on_stdout (@main U R T [prog; w; s; t]) = on_stdout (@main U R' T' [prog'; w'; s'; t']) <->
   F = F' /\ lo = lo' /\ hi = hi').
Proof.
  intros U R R' T T' F F' prog prog' w w' s t s' t' lo hi lo' hi' Hp Hp' Hw Hw' (a & b & Ha & Hb & Elo & Ehi) (a' & b' & Ha' & Hb' & Elo' & Ehi') Ht Ht'.
  assert (Va : valid a) by (eapply reads_valid; apply Ha). assert (Vb : valid b) by (eapply reads_valid; apply Hb).
  assert (Va' : valid a') by (eapply reads_valid; apply Ha'). assert (Vb' : valid b') by (eapply reads_valid; apply Hb').
  assert (Q : forall (R : Rust) (T : Terminal) F prog w s t (a b : addr F), unicode prog -> In w derange_words -> address_text F s a -> address_text F t b ->
    N.max (value a) (value b) <> top F ->
    exists r, range_to_subnets a b = Ret r /\ main [prog; w; s; t] = silent (map (@net_display (addr F) (@addr_ops R F)) r)).
  { clear. intros R T F prog w s t a b Hp Hw Ha Hb Ht. destruct (c62_derange R F prog w s t a b Hw Ha Hb Ht) as (r & E & D). exists r. split; [exact E|].
    rewrite <- lines_says in D. apply does_main; [exact D|]. constructor; [exact Hp|]. constructor; [now apply (word_unicode derange_words)|].
    constructor; [now apply address_unicode in Ha|]. constructor; [now apply address_unicode in Hb|constructor]. }
  rewrite Ehi in Ht. rewrite Ehi' in Ht'.
  destruct (Q R T F prog w s t a b Hp Hw Ha Hb Ht) as (r & Er & E). destruct (Q R' T' F' prog' w' s' t' a' b' Hp' Hw' Ha' Hb' Ht') as (r' & Er' & E').
  rewrite E, E'. cbn [silent on_stdout]. clear Q E E'.
  assert (B : forall F (a b : addr F), valid a -> valid b -> N.max (value a) (value b) <> top F -> N.max (value a) (value b) + 1 < 2 ^ width F).
  { clear -R. intros F a b Va Vb H. pose proof (value_lt (R := R) a Va). pose proof (value_lt (R := R) b Vb). unfold top in H. lia. }
  destruct (c35_covers_exactly R F a b Va Vb (B F a b Va Vb Ht)) as (q & Eq & Cr & C & _). rewrite Er in Eq. injection Eq as <-.
  destruct (c35_covers_exactly R' F' a' b' Va' Vb' (B F' a' b' Va' Vb' Ht')) as (q' & Eq' & Cr' & C' & _). rewrite Er' in Eq'. injection Eq' as <-.
  assert (Wr : Forall wf_net r) by (eapply Forall_impl; [|exact Cr]; intros n (p & Hn & _); exact Hn).
  assert (Wr' : Forall wf_net r') by (eapply Forall_impl; [|exact Cr']; intros n (p & Hn & _); exact Hn).
  split.
  - intros L. assert (Ee : map (@net_display (addr F') (@addr_ops R' F')) r' = map (@net_display (addr F') (@addr_ops R F')) r') by (apply map_ext; intros n; apply net_display_env).
    rewrite Ee in L. clear Ee. apply lines_inj in L; [|apply prints_nets..].
    assert (Hr : r <> []).
    { intros ->. destruct (proj1 (C a Va)) as (n & [] & _). lia. }
    assert (F = F') as <- by now apply (nets_family R F F' r r'). apply (nets_text R F) in L; [|assumption..]. subst r'. split; [reflexivity|].
    assert (S : forall c : addr F, valid c -> lo <= value c <= hi <-> lo' <= value c <= hi').
    { intros c Vc. rewrite Elo, Ehi, Elo', Ehi', (C c Vc), (C' c Vc). reflexivity. }
    pose proof (S a Va). pose proof (S b Vb). pose proof (S a' Va'). pose proof (S b' Vb'). clear -H H0 H1 H2 Elo Ehi Elo' Ehi'. lia.
  - intros (<- & L & H). apply (f_equal lines). assert (r' = r) as ->; [|apply map_ext; intros n; apply net_display_env].
    apply (range_env R R') in Er; [|assumption..].
    assert (@range_to_subnets R' (addr F) (@addr_ops R' F) a b = @range_to_subnets R' (addr F) (@addr_ops R' F) a' b') as Es; [|congruence].
    assert (value a = value a' /\ value b = value b' \/ value a = value b' /\ value b = value a') as [[X Y]|[X Y]] by (clear -Elo Ehi Elo' Ehi' L H; lia).
    + apply (value_inj (R := R)) in X, Y; try assumption. now subst.
    + apply (value_inj (R := R)) in X, Y; try assumption. subst. now apply c38_symmetric.
Qed.

(** ** Reports without an address *)
Lemma report_parts (R : Rust) (F : family) (n : net F) ho bc k cl :
  report n None ho bc k cl =
  row_of 1 (lit "Network:") (match cidr_prefix n with
     | Some p => display (base_addr n) ++ lit "/" ++ fmt_dec p
     | None => display (base_addr n)
     end) (base_addr n) (bit_colour (base_addr n) (subnet_mask n) true) ++
  (match ho with
   | Some (x, y) => row_of 8 (lit "HostMin:") (display x) x (fun _ => Yellow) ++ row_of 8 (lit "HostMax:") (display y) y (fun _ => Yellow)
   | None => [Frag White (lit "no hosts"); break]
   end) ++
  (match bc with
   | Some b => row_of 8 (lit "Broadcast:") (display b) b (fun _ => Yellow)
   | None => [Frag White (lit "no broadcast"); break]
   end) ++
  (if 2 <? k then
     headings (F := F) (lit "Hosts/Net:") (fmt_dec (k - 2)) ++
     (match cl with Some t => [Frag Magenta t] | None => [] end) ++ [break]
   else [Frag White (lit "no hosts/net")]).
Proof. reflexivity. Qed.

Lemma prints_net_text (R : Rust) (F : family) (n : net F) :
  prints (match cidr_prefix n with
     | Some p => display (base_addr n) ++ lit "/" ++ fmt_dec p
     | None => display (base_addr n)
     end).
Proof.
  destruct (cidr_prefix n); [|apply prints_addr]. apply prints_app; [apply prints_addr|]. apply prints_app; [now apply printable_check|apply prints_dec].
Qed.

(** The base and the last address tell the network. *)
Lemma ends_tell (R : Rust) (F : family) (n n' : net F) b : wf_net n -> wf_net n' -> base_addr n = base_addr n' -> highest n b -> highest n' b -> n = n'.
Proof.
  intros W W' Eb H H'.
  assert (K : forall m : net F, wf_net m -> highest m b -> forall i, i < width F ->
    N.testbit (value (subnet_mask m)) i = Bool.eqb (N.testbit (value b) i) (N.testbit (value (base_addr m)) i)).
  { clear -R. intros m W (Vb & Mb & X) i Hi. destruct (N.testbit (value (subnet_mask m)) i) eqn:E.
    - rewrite (Mb i Hi E). now rewrite Bool.eqb_reflx.
    - rewrite (wf_host _ W i Hi E). destruct (N.testbit (value b) i) eqn:Ei; [reflexivity|exfalso].
      assert (L : N.lor (value b) (2 ^ i) < 2 ^ width F).
      { apply lt_pow2_bits. intros j Hj. rewrite N.lor_spec, wf_high by assumption. rewrite N.pow2_bits_eqb. apply N.eqb_neq. lia. }
      destruct (value_surj (R := R) (F := F) _ L) as (c & Vc & Ec).
      assert (M : member m c).
      { intros j Hj Ej. rewrite Ec, N.lor_spec, N.pow2_bits_eqb. destruct (N.eqb_spec i j) as [->|_]; [congruence|]. rewrite Bool.orb_false_r. now apply Mb. }
      specialize (X c Vc M). rewrite Ec in X.
      assert (N.lor (value b) (2 ^ i) = value b + 2 ^ i).
      { rewrite <- N.lxor_lor, <- N.add_nocarry_lxor; [reflexivity| |];
        (apply N.bits_inj; intros j; rewrite N.land_spec, N.bits_0, N.pow2_bits_eqb; destruct (N.eqb_spec i j) as [<-|]; [now rewrite Ei|apply Bool.andb_false_r]). }
      pose proof (N.pow_nonzero 2 i). lia. }
  assert (Em : value (subnet_mask n) = value (subnet_mask n')).
  { apply N.bits_inj. intros i. destruct (N.lt_ge_cases i (width F)) as [Hi|Hi].
    - rewrite (K n W H i Hi), (K n' W' H' i Hi). now rewrite Eb.
    - rewrite !wf_high; [reflexivity|now apply wf_mask|exact Hi|now apply wf_mask|exact Hi]. }
  apply (network_of_unique F n n' (base_addr n) (value (subnet_mask n))).
  - split; [exact W|]. split; [reflexivity|apply member_base].
  - split; [exact W'|]. split; [now rewrite Em|]. rewrite Eb. apply member_base.
Qed.
Lemma broadcast_highest (R : Rust) (F : family) (n : net F) bc : wf_net n -> broadcast_of n bc ->
  highest n (match bc with Some b => b | None => base_addr n end).
Proof.
  intros W (k & Hk & H). destruct bc as [b|]; [apply H|]. destruct (c25_last_addr R F n W) as (h & _ & Hh).
  destruct (addr_eq_dec h (base_addr n)) as [<-|Hne]; [exact Hh|exfalso]. destruct Hk as (l & _ & Hi & El).
  assert (I : In h l) by (apply Hi; split; apply Hh). assert (J : In (base_addr n) l) by (apply Hi; split; [now apply wf_base|apply member_base]).
  destruct l as [|x [|y l]]; cbn [In List.length] in *; [tauto| |lia]. destruct I as [I|[]], J as [J|[]]. congruence.
Qed.

Lemma row_start (F : family) c k x label text (a : addr F) col X : (k = 1%nat \/ k = 8%nat) -> hd_error label = Some x ->
  hd_error (txt c (row_of k label text a col) ++ X) = Some x.
Proof.
  intros Hk H. destruct c; [rewrite row_true by exact Hk|rewrite row_false]; (destruct label as [|y label]; [discriminate|]); exact H.
Qed.
Lemma row_valid (F : family) (n : net F) ho : host_range n ho -> match ho with Some (x, y) => valid x /\ valid y | None => True end.
Proof. intros (k & _ & H). destruct ho as [[x y]|]; [|exact I]. destruct H as (_ & l & h & H). tauto. Qed.

Lemma network_told (R : Rust) c F F' (n : net F) (n' : net F') ms ms' X X' : wf_net n -> wf_net n' ->
  described n None ms -> described n' None ms' -> txt c ms ++ X = txt c ms' ++ X' ->
  exists E : F = F', match E in _ = G return net G -> Prop with eq_refl => fun m => n = m end n' /\ ms = ms' /\ X = X'.
Proof.
  intros W W' D D' E. pose proof D as (ho & bc & k & cl & Hho & Hbc & _ & _ & Ems). pose proof D' as (ho' & bc' & k' & cl' & Hho' & Hbc' & _ & _ & Ems').
  assert (P1 : prints (lit "Network:")) by now apply printable_check. assert (P2 : prints (lit "HostMin:")) by now apply printable_check.
  assert (P3 : prints (lit "HostMax:")) by now apply printable_check. assert (P4 : prints (lit "Broadcast:")) by now apply printable_check.
  pose proof E as E0.
  assert (G : F = F').
  { rewrite Ems, Ems', !report_parts, !txt_app, <- !app_assoc in E. destruct F, F'; try reflexivity; exfalso.
    - eapply families_told; [| | |exact E]; [exact P1|apply prints_net_text..].
    - eapply families_told; [| | |symmetry; exact E]; [exact P1|apply prints_net_text..]. }
  subst F'. exists eq_refl.
  assert (n = n') as <-.
  { rewrite Ems, Ems', !report_parts, !txt_app, <- !app_assoc in E.
    apply (row_told R) in E; [|now left|exact P1|apply prints_net_text|apply prints_net_text|now apply wf_base..]. destruct E as [Eb E].
    pose proof (row_valid F n ho Hho) as V. pose proof (row_valid F n' ho' Hho') as V'.
    match type of E with _ ++ ?Y = _ ++ ?Y' => assert (E1 : Y = Y') end.
    { destruct ho as [[x y]|], ho' as [[x' y']|].
      - rewrite !txt_app, <- !app_assoc in E. destruct V, V'. apply (row_told R) in E; [|now right|exact P2|apply prints_addr|apply prints_addr|assumption..]. destruct E as [_ E].
        apply (row_told R) in E; [|now right|exact P3|apply prints_addr|apply prints_addr|assumption..]. apply E.
      - apply (f_equal (@hd_error ascii)) in E. rewrite txt_app, <- app_assoc, (row_start F c 8 "H"%char) in E by (try reflexivity; now right). destruct c; discriminate E.
      - symmetry in E. apply (f_equal (@hd_error ascii)) in E. rewrite txt_app, <- app_assoc, (row_start F c 8 "H"%char) in E by (try reflexivity; now right). destruct c; discriminate E.
      - now apply app_inv_head in E. }
    clear E. pose proof (broadcast_highest R F n bc W Hbc) as H. pose proof (broadcast_highest R F n' bc' W' Hbc') as H'.
    destruct bc as [b|], bc' as [b'|].
    - apply (row_told R) in E1; [|now right|exact P4|apply prints_addr|apply prints_addr|apply H|apply H']. destruct E1 as [<- _]. now apply (ends_tell R F n n' b).
    - apply (f_equal (@hd_error ascii)) in E1. rewrite (row_start F c 8 "B"%char) in E1 by (try reflexivity; now right). destruct c; discriminate E1.
    - symmetry in E1. apply (f_equal (@hd_error ascii)) in E1. rewrite (row_start F c 8 "B"%char) in E1 by (try reflexivity; now right). destruct c; discriminate E1.
    - apply (ends_tell R F n n' (base_addr n)); try assumption. now rewrite Eb. }
  split; [reflexivity|]. assert (ms = ms') as <- by (now apply (c67_described_once R F n None)). split; [reflexivity|]. now apply app_inv_head in E0.
Qed.

(** ** From marks to bytes *)
Lemma main_marks (U : Unicode) (R : Rust) (T : Terminal) args ms z : does args ms z -> Forall unicode args ->
  on_stdout (main args) = flat_map to_stdout (map (paint colors_enabled) ms) /\
  Forall neat_event (map (paint colors_enabled) ms) /\ ended (main args) = Ret z.
Proof.
  intros D Hu. pose proof (neat_do_main R T _ Hu) as Hn. unfold neat in Hn. rewrite main_run by exact Hu. rewrite (D T) in *. cbn [fst snd on_stdout ended] in *. auto.
Qed.
Lemma line_told c s s' X X' : prints s -> prints s' -> txt c (says s :: X) = txt c (says s' :: X') -> s = s' /\ txt c X = txt c X'.
Proof.
  intros H H' E. cbn [txt flat_map says said newline] in E. rewrite <- !app_assoc in E. cbn [app] in E. apply nl_split in E; [exact E|now apply prints_nl..].
Qed.
Lemma line_told_more c s s' A A' X X' : prints s -> prints s' -> txt c (says s :: A) ++ X = txt c (says s' :: A') ++ X' -> s = s' /\ txt c A ++ X = txt c A' ++ X'.
Proof.
  intros H H' E. cbn [txt flat_map says said newline] in E. rewrite <- !app_assoc in E. cbn [app] in E. apply nl_split in E; [exact E|now apply prints_nl..].
Qed.
Lemma mask_valid (R : Rust) F t (m : addr F) : mask_text F t m -> valid m.
Proof. intros [[_ H]|(p & _ & _ & H & _)]; [now apply reads_valid in H|exact H]. Qed.
Lemma mask_unicode F t (m : addr F) : mask_text F t m -> unicode t.
Proof. intros [H|(p & H & _)]; [now apply address_unicode in H|]. apply ascii_unicode. now apply written_ascii in H. Qed.

(** ** Resizing *)
Lemma resize_first (R : Rust) (F : family) (n : net F) (m : addr F) r o : wf_net n -> valid m -> resize_network n m = Ret (r, o) ->
  exists e r', r = e :: r' /\ wf_net e /\ subnet_mask e = m.
Proof.
  intros Hn Hm E. destruct (N.lt_trichotomy (host_bits (subnet_mask n)) (host_bits m)) as [H|[H|H]].
  - destruct (c52_supernet R F n m Hn Hm H) as (x & Ex & Wx & Mx & _). rewrite E in Ex. injection Ex as -> _. now exists x, [].
  - destruct (c54_same_size R F n m Hn Hm (eq_sym H)) as (x & Ex & Wx & Mx & _). rewrite E in Ex. injection Ex as -> _. now exists x, [].
  - destruct (c53_subnets R F n m Hn Hm H) as (l & Ex & Hl & Fl & _). rewrite E in Ex. injection Ex as -> _.
    destruct l as [|x l]; [cbn [List.length] in Hl; pose proof (N.pow_nonzero 2 (host_bits (subnet_mask n) - host_bits m)); lia|].
    apply Forall_inv in Fl. exists x, l. tauto.
Qed.

Lemma c77_resize : forall (U : Unicode) (R R' : Rust) (T : Terminal) (F F' : family) (prog prog' w w' s t s' t' : str) (m : addr F) (m' : addr F'),
  unicode prog -> unicode prog' -> In w resize_words -> In w' resize_words ->
  of_family F s -> of_family F' s' -> mask_text F t m -> mask_text F' t' m' ->
  (on_stdout (@main U R T [prog; w; s; t]) = on_stdout (@main U R' T [prog'; w'; s'; t']) <->
   same_network s s' /\ value m = value m').
Proof.
  intros U R R' T F F' prog prog' w w' s t s' t' m m' Hp Hp' Hw Hw' (a & n & M) (a' & n' & M') Hm Hm'.
  destruct (means_wf R F s a n M) as [_ W]. destruct (means_wf R F' s' a' n' M') as [_ W'].
  pose proof (mask_valid R F t m Hm) as Vm. pose proof (mask_valid R F' t' m' Hm') as Vm'.
  destruct (c62_resize R F prog w s t a n m Hw M Hm) as (r & o & first & mss & Er & Df & Dr & D).
  destruct (c62_resize R F' prog' w' s' t' a' n' m' Hw' M' Hm') as (r' & o' & first' & mss' & Er' & Df' & Dr' & D').
  assert (Hu : Forall unicode [prog; w; s; t]).
  { constructor; [exact Hp|]. constructor; [now apply (word_unicode resize_words)|]. constructor; [now apply means_unicode in M|]. constructor; [now apply mask_unicode in Hm|constructor]. }
  assert (Hu' : Forall unicode [prog'; w'; s'; t']).
  { constructor; [exact Hp'|]. constructor; [now apply (word_unicode resize_words)|]. constructor; [now apply means_unicode in M'|]. constructor; [now apply mask_unicode in Hm'|constructor]. }
  destruct (main_marks U R T _ _ _ D Hu) as (E & Hn & Z). destruct (main_marks U R T _ _ _ D' Hu') as (E' & Hn' & Z').
  assert (S : on_stdout (@main U R' T [prog'; w'; s'; t']) = on_stdout (@main U R T [prog'; w'; s'; t'])).
  { apply (c74_same_stdout U R R' T _ 0%Z Z'). intros p x y ts cs Eq Hin. exfalso. injection Eq as _ <- _ _. clear -Hw' Hin.
    destruct Hw' as [<-|[<-|[]]], Hin as [E|[E|[]]]; discriminate E. }
  rewrite S, E, E'. clear S E E' D D' Z Z'. split.
  - intros B. apply bytes_text in B; [|assumption..]. clear Hn Hn'. unfold resize_marks in B.
    apply line_told in B; [|now apply printable_check..]. destruct B as [_ B]. rewrite !txt_app in B.
    apply (network_told R colors_enabled F F' n n' first first') in B; [|assumption..]. destruct B as (<- & <- & <- & B).
    match type of B with txt ?c (break :: ?X) = txt ?c (break :: ?Y) => change (nl :: txt c X = nl :: txt c Y) in B; injection B as B end.
    destruct (resize_first R F n m r o W Vm Er) as (e & l & -> & We & <-). destruct (resize_first R F n m' r' o' W' Vm' Er') as (e' & l' & -> & We' & <-).
    inversion Dr as [|? ms ? mss0 De Dr0]; subst. inversion Dr' as [|? ms' ? mss0' De' Dr0']; subst.
    cbn [List.length seq combine flat_map fst snd app] in B.
    assert (Pl : forall o, prints (match o with Lt => lit "Supernet:" | Eq => lit "Same-sized net:" | Gt => lit "Subnet " ++ fmt_dec (N.of_nat 1) ++ lit ":" end)).
    { intros []; now apply printable_check. }
    apply line_told in B; [|apply Pl..]. destruct B as [_ B]. rewrite <- !app_assoc, !(txt_app _ ms), !(txt_app _ ms') in B.
    apply (network_told R colors_enabled F F e e' ms ms') in B; [|assumption..]. destruct B as (EF & Ee & _ & _).
    assert (e = e') as <-. { rewrite (Eqdep_dec.UIP_dec family_eq_dec EF eq_refl) in Ee. exact Ee. }
    split; [now apply (same_network_of R F s s' a a' n)|reflexivity].
  - intros [S V]. destruct (proj1 (S F n)) as (b & Mb); [now exists a|]. assert (F = F') as <- by exact (means_family R F F' s' b n a' n' Mb M').
    destruct (means_same R F s' b n a' n' Mb M') as [_ <-]. apply (value_inj (R := R)) in V; [|assumption..]. subst m'.
    rewrite Er in Er'. injection Er' as <- <-. pose proof (c67_described_once R F n None first first' W Df Df') as <-.
    pose proof (resize_wf R F n m r o W Vm Er) as Wr. now rewrite (described_list_same R R F r mss mss' Wr Dr Dr').
Qed.

(** ** Splitting *)
Lemma count_unicode s c : count_text s c -> unicode s.
Proof.
  intros (sign & digits & k & -> & _ & Hd & Hs). apply ascii_unicode. apply Forall_app. split.
  - assert (In sign [[]; lit "+"; lit "-"]) as [<-|[<-|[<-|[]]]] by (destruct Hs as [[[<-|[<-|[]]] _]|[-> _]]; cbn [In]; tauto); repeat constructor.
  - assert (A : ascii_text (filter (fun x => negb (Ascii.eqb x "_")) digits)) by (apply (written_ascii 10 _ k); now left).
    clear -A. induction digits as [|x digits IH]; [constructor|]. cbn [filter] in A. destruct (Ascii.eqb_spec x "_") as [->|_]; cbn [negb] in A.
    + constructor; [reflexivity|now apply IH].
    + inversion A; subst. constructor; [assumption|now apply IH].
Qed.
Definition split_tail {F : family} (R : Rust) (n : net F) (cs : list Z) (h : addr F) (tail : list mark) : Prop :=
  ~ split_inside n cs /\ tail = [says (lit "Network is too small")] \/
  split_inside n cs /\ exists b us, valid b /\ value b = run_start n cs + total cs /\ range_to_subnets b h = Ret us /\
    tail = says (lit "Unused networks:") :: map (fun u => says (@net_display (addr F) (@addr_ops R F) u)) us.
Lemma split_run (U : Unicode) (R : Rust) (T : Terminal) F prog w s ss (a : addr F) (n : net F) cs h :
  unicode prog -> In w split_words -> means F s a n -> counts_text ss cs -> highest n h ->
  ended (main (prog :: w :: s :: ss)) = Ret 0%Z ->
  exists first r mss tail, described n None first /\ split_subnet n cs = Ret (Some r) /\ Forall2 (fun e ms => described e None ms) r mss /\
    split_tail R n cs h tail /\
    on_stdout (main (prog :: w :: s :: ss)) = flat_map to_stdout (map (paint colors_enabled) (split_marks first cs mss ++ tail)) /\
    Forall neat_event (map (paint colors_enabled) (split_marks first cs mss ++ tail)).
Proof.
  intros Hp Hw M Hc Hh Z. destruct (means_wf R F s a n M) as [_ Wn].
  assert (Hu : Forall unicode (prog :: w :: s :: ss)).
  { constructor; [exact Hp|]. constructor; [now apply (word_unicode split_words)|]. constructor; [now apply means_unicode in M|].
    destruct Hc as (_ & Hc & _). clear -Hc. induction Hc as [|t c ss cs Ht Hc IH]; constructor; [|exact IH]. now apply count_unicode in Ht. }
  assert (Hne : cs <> []) by (destruct Hc as (H1 & H2 & _); destruct H2; congruence).
  destruct (c62_split R F prog w s ss a n cs h Hw M Hc Hh) as (first & Df & P1 & P2).
  destruct (N.le_gt_cases (run_start n cs + total cs) (top F)) as [Hle|Hgt].
  - destruct (P2 Hle) as (r & mss & Er & Dm & Q1 & Q2). destruct (inside_dec R n cs Wn Hne) as [Hi|Hi].
    + destruct (N.eq_dec (N.max (run_start n cs + total cs) (value h)) (top F)) as [E|E].
      * exfalso. rewrite main_run in Z by exact Hu. cbn [ended] in Z.
        assert (Ex : exists z, snd (do_main (prog :: w :: s :: ss)) = Ret z) by (eexists; exact Z). apply (c62_ends_iff R T) in Ex. destruct Ex as [_ Ex]. apply Ex.
        exists F, prog, w, s, ss, a, n, cs, h. repeat (split; [first [reflexivity|assumption]|]). exact E.
      * destruct (Q2 Hi E) as (b & us & Vb & Eb & Eu & X). destruct (main_marks U R T _ _ _ X Hu) as (E1 & E2 & _).
        eexists first, r, mss, _. split; [exact Df|]. split; [exact Er|]. split; [exact Dm|]. split; [right; split; [exact Hi|]; exists b, us; auto|]. split; [exact E1|exact E2].
    + destruct (main_marks U R T _ _ _ (Q1 Hi) Hu) as (E1 & E2 & _).
      eexists first, r, mss, _. split; [exact Df|]. split; [exact Er|]. split; [exact Dm|]. split; [left; split; [exact Hi|reflexivity]|]. split; [exact E1|exact E2].
  - destruct (P1 Hgt) as [_ X]. destruct (main_marks U R T _ _ _ X Hu) as (_ & _ & E). congruence.
Qed.

Lemma fmt_Z_inj c c' : (0 <= c)%Z -> (0 <= c')%Z -> fmt_Z c = fmt_Z c' -> c = c'.
Proof.
  intros H H' E. assert (G : forall c, (0 <= c)%Z -> fmt_Z c = fmt_dec (Z.to_N c)) by (clear; intros [|p|p] H; try reflexivity; lia).
  rewrite !G in E by assumption. apply dec_inj in E. lia.
Qed.
Lemma tail_start (R : Rust) F (n : net F) cs h tail c : split_tail R n cs h tail -> hd_error (txt c tail) <> Some "S"%char /\ txt c tail <> [].
Proof. intros [[_ ->]|(_ & b & us & _ & _ & _ & ->)]; split; discriminate. Qed.

Lemma items_told (R : Rust) c F (r : list (net F)) : forall (cs : list Z) (mss : list (list mark)) (r' : list (net F)) (cs' : list Z) (mss' : list (list mark)) (X X' : str),
  Forall wf_net r -> Forall wf_net r' -> List.length cs = List.length r -> List.length cs' = List.length r' ->
  Forall (fun c => 0 <= c)%Z cs -> Forall (fun c => 0 <= c)%Z cs' ->
  Forall2 (fun e ms => described e None ms) r mss -> Forall2 (fun e ms => described e None ms) r' mss' ->
  hd_error X <> Some "S"%char -> hd_error X' <> Some "S"%char ->
  txt c (flat_map (fun cm => says (lit "Subnet for " ++ fmt_Z (fst cm) ++ lit " hosts:") :: snd cm ++ [break]) (combine cs mss)) ++ X =
  txt c (flat_map (fun cm => says (lit "Subnet for " ++ fmt_Z (fst cm) ++ lit " hosts:") :: snd cm ++ [break]) (combine cs' mss')) ++ X' -> cs = cs'.
Proof.
  induction r as [|e r IH]; intros cs mss r' cs' mss' X X' W W' L L' P P' D D' HX HX' E.
  - destruct cs; [|discriminate]. destruct cs' as [|k' cs']; [reflexivity|exfalso]. destruct r' as [|e' r']; [discriminate|].
    inversion D'; subst. cbn [combine flat_map] in E. apply HX. cbn [txt flat_map app] in E. now rewrite E.
  - destruct cs as [|k cs]; [discriminate|]. inversion D as [|? ms ? mss0 De D0]; subst. destruct cs' as [|k' cs'].
    { exfalso. cbn [combine flat_map] in E. apply HX'. cbn [txt flat_map app] in E. now rewrite <- E. }
    destruct r' as [|e' r']; [discriminate|]. inversion D' as [|? ms' ? mss0' De' D0']; subst.
    inversion W; subst. inversion W'; subst. inversion P; subst. inversion P'; subst.
    cbn [combine flat_map fst snd] in E. rewrite <- !app_comm_cons in E.
    assert (Pk : forall k, prints (lit "Subnet for " ++ fmt_Z k ++ lit " hosts:")).
    { intros k0. apply prints_app; [now apply printable_check|]. apply prints_app; [apply prints_Z|now apply printable_check]. }
    apply line_told_more in E; [|apply Pk..]. destruct E as [Ek E]. apply app_inv_head, app_inv_tail in Ek. apply fmt_Z_inj in Ek; [|assumption..]. subst k'. f_equal.
    rewrite <- !app_assoc, (txt_app c ms), (txt_app c ms'), <- !app_assoc in E.
    apply (network_told R c F F e e' ms ms') in E; [|assumption..]. destruct E as (_ & _ & _ & E).
    cbn [app] in E. match type of E with txt _ (break :: ?A) ++ _ = txt _ (break :: ?A') ++ _ =>
      change (nl :: txt c A ++ X = nl :: txt c A' ++ X') in E; injection E as E end.
    apply (IH cs mss0 r' cs' mss0' X X'); try assumption; [now injection L|now injection L'].
Qed.

Lemma c77_split : forall (U : Unicode) (R : Rust) (T : Terminal) (F F' : family) (prog prog' w w' s s' : str) (ss ss' : list str) (cs cs' : list Z),
  unicode prog -> unicode prog' -> In w split_words -> In w' split_words ->
  of_family F s -> of_family F' s' -> counts_text ss cs -> counts_text ss' cs' ->
  ended (@main U R T (prog :: w :: s :: ss)) = Ret 0%Z -> ended (@main U R T (prog' :: w' :: s' :: ss')) = Ret 0%Z ->
  (on_stdout (@main U R T (prog :: w :: s :: ss)) = on_stdout (@main U R T (prog' :: w' :: s' :: ss')) <->
   same_network s s' /\ cs = cs').
Proof.
  intros U R T F F' prog prog' w w' s s' ss ss' cs cs' Hp Hp' Hw Hw' (a & n & M) (a' & n' & M') Hc Hc' Z Z'.
  destruct (means_wf R F s a n M) as [_ W]. destruct (means_wf R F' s' a' n' M') as [_ W'].
  destruct (c25_last_addr R F n W) as (h & _ & Hh). destruct (c25_last_addr R F' n' W') as (h' & _ & Hh').
  destruct (split_run U R T F prog w s ss a n cs h Hp Hw M Hc Hh Z) as (first & r & mss & tail & Df & Er & Dr & Ht & E & Hn).
  destruct (split_run U R T F' prog' w' s' ss' a' n' cs' h' Hp' Hw' M' Hc' Hh' Z') as (first' & r' & mss' & tail' & Df' & Er' & Dr' & Ht' & E' & Hn').
  rewrite E, E'. clear E E' Z Z'.
  pose proof (c46_one_per_request R F n cs r W Er) as O. pose proof (c46_one_per_request R F' n' cs' r' W' Er') as O'.
  assert (Q : forall F (n : net F) (cs : list Z) (r : list (net F)), Forall2 (fun c e => wf_net e) cs r -> List.length cs = List.length r /\ Forall wf_net r).
  { clear. intros F n cs r H. induction H as [|c e cs r He H [IH1 IH2]]; [split; [reflexivity|constructor]|]. cbn [List.length]. split; [now f_equal|now constructor]. }
  destruct (Q F n cs r) as [Ln Wr]; [eapply Forall2_imp; [|exact O]; intros c m [_ [H _]]; exact H|]. destruct (Q F' n' cs' r') as [Ln' Wr']; [eapply Forall2_imp; [|exact O']; intros c m [_ [H _]]; exact H|]. clear Q O O'.
  split.
  - intros B. apply bytes_text in B; [|assumption..]. clear Hn Hn'. unfold split_marks in B. rewrite <- !app_comm_cons in B.
    apply line_told in B; [|now apply printable_check..]. destruct B as [_ B]. rewrite <- !app_assoc, (txt_app _ first), (txt_app _ first') in B.
    apply (network_told R colors_enabled F F' n n' first first') in B; [|assumption..]. destruct B as (<- & <- & <- & B). rewrite <- !app_comm_cons in B.
    match type of B with txt ?c (break :: ?X) = txt ?c (break :: ?Y) => change (nl :: txt c X = nl :: txt c Y) in B; injection B as B end.
    rewrite !txt_app in B. split; [now apply (same_network_of R F s s' a a' n)|].
    apply (items_told R colors_enabled F r cs mss r' cs' mss' (txt colors_enabled tail) (txt colors_enabled tail')); try assumption; [apply Hc|apply Hc'| |].
    + now apply (tail_start R F n cs h).
    + now apply (tail_start R F n cs' h').
  - intros [S <-]. destruct (proj1 (S F n)) as (b & Mb); [now exists a|]. assert (F = F') as <- by exact (means_family R F F' s' b n a' n' Mb M').
    destruct (means_same R F s' b n a' n' Mb M') as [_ <-].
    rewrite Er in Er'. injection Er' as <-. pose proof (c67_described_once R F n None first first' W Df Df') as <-.
    rewrite (described_list_same R R F r mss mss' Wr Dr Dr'). pose proof (highest_once R n h h' Hh Hh') as <-.
    assert (tail = tail') as <-; [|reflexivity]. destruct Ht as [[I ->]|(I & x & us & Vx & Ex & Ux & ->)], Ht' as [[I' ->]|(I' & x' & us' & Vx' & Ex' & Ux' & ->)]; try contradiction; [reflexivity|].
    assert (x = x') as <- by (apply (value_inj (R := R)); congruence). rewrite Ux in Ux'. now injection Ux' as <-.
Qed.
