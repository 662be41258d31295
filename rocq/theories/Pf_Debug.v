(** * Pf_Debug: proofs for P_Debug *)
From Coq Require Import ZifyBool ZifyNat ZifyN.
From Verif Require Import RustBase Addr Net Parse Console Messages Debugging Spec SpecText SpecProcess SpecMessages TextFacts Utf8Facts Pf_Text Pf_Process Pf_Messages Pf_Told Pf_Pipes Pf_Table SpecDebug.
Ltac Zify.zify_post_hook ::= idtac.

(** ** Tokens *)
Lemma span_len s : (List.length (snd (span s)) <= List.length s)%nat.
Proof. induction s as [|c s IH]; cbn [span]; [constructor|]. destruct (wordly c); [|cbn [snd List.length]; lia]. destruct (span s) as [w r]. cbn [snd List.length] in *. lia. Qed.
Lemma split_at_len x s : forall a b, split_at x s = Some (a, b) -> (List.length b < List.length s)%nat.
Proof.
  induction s as [|c s IH]; intros a b; cbn [split_at]; [discriminate|]. destruct (Ascii.eqb c x).
  - intros E. injection E as _ <-. cbn. lia.
  - destruct (split_at x s) as [[a' b']|]; [|discriminate]. intros E. injection E as _ <-. specialize (IH _ _ eq_refl). cbn. lia.
Qed.
Lemma body_len : forall k s t r, literal_body k s = Some (t, r) -> (List.length r < List.length s)%nat.
Proof.
  induction k as [|k IH]; intros s t r; [discriminate|]. destruct s as [|c s]; [discriminate|]. cbn [literal_body].
  destruct (Ascii.eqb c """"); [intros E; injection E as _ <-; cbn; lia|].
  destruct (Ascii.eqb c "\").
  - destruct s as [|e s2]; [discriminate|].
    assert (G : forall x, match x, literal_body k s2 with Some y, Some (t0, rest) => Some (y :: t0, rest) | _, _ => None end = Some (t, r) ->
      (List.length r < List.length (c :: e :: s2))%nat).
    { intros [y|]; [|discriminate]. destruct (literal_body k s2) as [[t0 rest]|] eqn:B; [|discriminate]. intros E. injection E as _ <-. apply IH in B. cbn. lia. }
    destruct (Ascii.eqb_spec e "u") as [->|He].
    + destruct s2 as [|b s3]; [intros H; apply (G (unescape "u")); exact H|]. destruct (Ascii.eqb_spec b "{") as [->|Hb].
      * destruct (split_at "}" s3) as [[h s4]|] eqn:Sp; [|discriminate]. apply split_at_len in Sp.
        destruct (numeral 16 h); [|discriminate]. destruct (literal_body k s4) as [[t0 rest]|] eqn:B; [|discriminate].
        intros E. injection E as _ <-. apply IH in B. cbn. lia.
      * intros H. apply (G (unescape "u")). destruct b as [[] [] [] [] [] [] [] []]; try exact H; now elim Hb.
    + intros H. apply (G (unescape e)). destruct e as [[] [] [] [] [] [] [] []]; try exact H; now elim He.
  - destruct (literal_body k s) as [[t0 rest]|] eqn:B; [|discriminate]. intros E. injection E as _ <-. apply IH in B. cbn. lia.
Qed.
Lemma literal_len s t r : literal s = Some (t, r) -> (List.length r < List.length s)%nat.
Proof.
  destruct s as [|c s]; [discriminate|]. cbn [literal]. destruct (Ascii.eqb c """"); [|discriminate]. intros H. apply body_len in H. cbn. lia.
Qed.
Lemma tokens_fuel : forall k k' s, (List.length s <= k)%nat -> (List.length s <= k')%nat -> tokens_in k s = tokens_in k' s.
Proof.
  induction k as [|k IH]; intros [|k'] [|c s] H H'; try reflexivity; try (cbn in *; lia). cbn [List.length] in *. cbn [tokens_in].
  destruct (blank c); [apply IH; lia|]. destruct (wordly c) eqn:W.
  - pose proof (span_len s) as Hs. cbn [span]. rewrite W. destruct (span s) as [w r]. cbn [snd] in Hs. f_equal. apply IH; lia.
  - destruct (literal (c :: s)) as [[t r]|] eqn:L.
    + apply literal_len in L. cbn [List.length] in L. f_equal. apply IH; lia.
    + f_equal. apply IH; lia.
Qed.

Definition boundary (r : str) : Prop := match r with [] => True | c :: _ => wordly c = false end.
Lemma tok_blank c s : blank c = true -> tokens (c :: s) = tokens s.
Proof. intros B. unfold tokens. cbn [List.length tokens_in]. now rewrite B. Qed.
Lemma tok_mark c s : blank c = false -> wordly c = false -> Ascii.eqb c """" = false -> tokens (c :: s) = Mark c :: tokens s.
Proof. intros B W Q. unfold tokens. cbn [List.length tokens_in]. rewrite B, W. cbn [literal]. now rewrite Q. Qed.
Lemma span_app w r : forallb wordly w = true -> boundary r -> span (w ++ r) = (w, r).
Proof.
  induction w as [|c w IH]; cbn [forallb app]; intros H B.
  - destruct r as [|c r]; [reflexivity|]. cbn [span boundary] in *. now rewrite B.
  - apply andb_prop in H. destruct H as [H1 H2]. cbn [span]. now rewrite H1, IH.
Qed.
Lemma wordly_blank c : wordly c = true -> blank c = false.
Proof. destruct c as [[] [] [] [] [] [] [] []]; intros H; try reflexivity; discriminate H. Qed.
Lemma tok_word w r : w <> [] -> forallb wordly w = true -> boundary r -> tokens (w ++ r) = word w :: tokens r.
Proof.
  intros E H B. unfold tokens. pose proof (span_app w r H B) as Sp. destruct w as [|c w]; [now elim E|].
  cbn [app List.length tokens_in] in *. cbn [forallb] in H. apply andb_prop in H. destruct H as [H1 H2].
  rewrite (wordly_blank c H1), H1, Sp. f_equal. apply tokens_fuel; [rewrite app_length; lia|lia].
Qed.
Lemma tok_text s q r : quotes s q -> tokens (q ++ r) = Text s :: tokens r.
Proof.
  intros Q. pose proof (quotes_read s q r Q) as L. destruct (quotes_head s q Q) as [q' ->]. unfold tokens.
  pose proof (literal_len _ _ _ L) as K. cbn [app List.length tokens_in] in *.
  change (blank """") with false. change (wordly """") with false. cbv iota. rewrite L. f_equal. apply tokens_fuel; lia.
Qed.
Lemma tokens_nil : tokens [] = []. Proof. reflexivity. Qed.

(** ** Sound shapes *)
Lemma shape_ind2 (P : shape -> Prop) :
  (forall s, P (Leaf s)) -> (forall name fs, Forall (fun f => P (snd f)) fs -> P (Fields name fs)) ->
  (forall name ds, Forall P ds -> P (Tuple name ds)) -> (forall ds, Forall P ds -> P (Many ds)) -> forall d, P d.
Proof.
  intros HL HF HT HM. fix rec 1. intros [s|name fs|name ds|ds].
  - apply HL.
  - apply HF. induction fs as [|f fs IH]; [constructor|]. constructor; [apply rec|exact IH].
  - apply HT. induction ds as [|f fs IH]; [constructor|]. constructor; [apply rec|exact IH].
  - apply HM. induction ds as [|f fs IH]; [constructor|]. constructor; [apply rec|exact IH].
Qed.

Definition not_mark (t : token) : Prop := match t with Mark _ => False | _ => True end.
Definition brackets : str := lit ")]}".
Definition starts (s : str) : Prop := match s with c :: _ => blank c = false /\ existsb (Ascii.eqb c) brackets = false | [] => False end.
Definition named (w : str) : Prop := w <> [] /\ forallb wordly w = true.
Record sound (s : str) : Prop := {
  sound_tok : exists t, not_mark t /\ forall r, boundary r -> tokens (s ++ r) = t :: tokens r;
  sound_start : starts s;
  sound_tidy : tidy s }.
Definition all {X} (Q : X -> Prop) (l : list X) : Prop := fold_right (fun x P => Q x /\ P) True l.
Lemma all_Forall {X} (Q : X -> Prop) l : all Q l <-> Forall Q l.
Proof.
  induction l as [|x l IH]; cbn; [split; [constructor|auto]|]. split.
  - intros [H1 H2]. constructor; [exact H1|now apply IH].
  - intros H. inversion H; subst. split; [assumption|now apply IH].
Qed.
Fixpoint fine (d : shape) : Prop :=
  match d with
  | Leaf s => sound s
  | Fields name fs => named name /\ fs <> [] /\ all (fun f => named (fst f) /\ fine (snd f)) fs
  | Tuple name ds => (name = [] \/ named name) /\ ds <> [] /\ all fine ds
  | Many ds => all fine ds
  end.

Lemma wordly_printable c : wordly c = true -> printable_ascii c.
Proof. destruct c as [[] [] [] [] [] [] [] []]; intros H; try discriminate H; vm_compute; split; discriminate. Qed.
Lemma named_tidy w : named w -> tidy w.
Proof.
  intros [_ H]. apply tidy_ascii, Forall_forall. intros c Hc. rewrite forallb_forall in H. now apply wordly_printable, H.
Qed.
Lemma wordly_starts c : wordly c = true -> blank c = false /\ existsb (Ascii.eqb c) brackets = false.
Proof. destruct c as [[] [] [] [] [] [] [] []]; intros H; try discriminate H; split; reflexivity. Qed.
Lemma named_starts w s : named w -> starts (w ++ s).
Proof. intros [E H]. destruct w as [|c w]; [now elim E|]. cbn [app starts forallb] in *. apply andb_prop in H. now apply wordly_starts. Qed.
Lemma starts_app s t : starts s -> starts (s ++ t).
Proof. destruct s; [intros []|auto]. Qed.

Definition name_tok (name : str) : list token := match name with [] => [] | _ => [word name] end.
Fixpoint stoks (d : shape) : list token :=
  match d with
  | Leaf s => tokens s
  | Fields name fs => word name :: Mark "{" :: with_commas (map (fun f => word (fst f) :: Mark ":" :: stoks (snd f)) fs) ++ [Mark "}"]
  | Tuple name ds => name_tok name ++ Mark "(" :: with_commas (map stoks ds) ++ [Mark ")"]
  | Many ds => Mark "[" :: with_commas (map stoks ds) ++ [Mark "]"]
  end.
Definition lexes (s : str) (ts : list token) : Prop := forall r, boundary r -> tokens (s ++ r) = ts ++ tokens r.
Lemma sound_lexes s : sound s -> lexes s (tokens s).
Proof.
  intros [(t & _ & H) _ _] r B. rewrite H by exact B. specialize (H [] I). rewrite app_nil_r in H. now rewrite H.
Qed.

Ltac sp := repeat first [rewrite tok_blank by reflexivity | rewrite tok_mark by reflexivity].
Lemma lexes_join xs tss : Forall2 lexes xs tss -> lexes (join (lit ", ") xs) (with_commas tss).
Proof.
  induction 1 as [|x ts xs tss H H1 IH]; intros r B; [reflexivity|]. cbn [join with_commas].
  inversion H1; subst.
  - now apply H.
  - rewrite <- !app_assoc. rewrite H by reflexivity. f_equal. rewrite <- app_comm_cons. rewrite <- IH by exact B. cbn [lit list_ascii_of_string app]. now sp.
Qed.
Lemma Forall2_map2 {X Y Y'} (P : Y -> Y' -> Prop) (f : X -> Y) (g : X -> Y') l : Forall (fun x => P (f x) (g x)) l -> Forall2 P (map f l) (map g l).
Proof. induction 1; cbn [map]; constructor; auto. Qed.
Lemma name_lexes name r : name = [] \/ named name -> boundary r -> tokens (name ++ r) = name_tok name ++ tokens r.
Proof.
  intros [->|[E H]] B; [reflexivity|]. rewrite tok_word by assumption. destruct name; [now elim E|reflexivity].
Qed.
Lemma compact_lexes d : fine d -> lexes (compact d) (stoks d).
Proof.
  induction d as [s|name fs IH|name ds IH|ds IH] using shape_ind2; cbn [fine compact stoks].
  - apply sound_lexes.
  - intros ((Hn & Hw) & _ & Hf) r B. rewrite all_Forall in Hf. rewrite <- !app_assoc. rewrite tok_word; [|assumption|assumption|reflexivity].
    cbn [app]. f_equal. change (lit " { " ++ ?x) with (" " :: "{" :: " " :: x)%char. sp. f_equal. rewrite <- app_assoc.
    rewrite (lexes_join _ (map (fun f => word (fst f) :: Mark ":" :: stoks (snd f)) fs)).
    + reflexivity.
    + apply Forall2_map2. rewrite Forall_forall in *. intros f Hin r' B'. destruct (Hf f Hin) as [[Hn1 Hw1] Hd].
      rewrite <- !app_assoc. rewrite tok_word; [|assumption|assumption|reflexivity]. cbn [app]. f_equal.
      change (lit ": " ++ ?x) with (":" :: " " :: x)%char. sp. f_equal. now apply (IH f Hin Hd).
    + reflexivity.
  - intros (Hn & _ & Hf) r B. rewrite all_Forall in Hf. rewrite <- !app_assoc. rewrite name_lexes; [|assumption|reflexivity].
    f_equal. change (lit "(" ++ ?x) with ("(" :: x)%char. sp. cbn [app]. f_equal. rewrite <- app_assoc.
    rewrite (lexes_join _ (map stoks ds)).
    + reflexivity.
    + apply Forall2_map2. rewrite Forall_forall in *. auto.
    + reflexivity.
  - intros Hf r B. rewrite all_Forall in Hf. rewrite <- !app_assoc.
    change (lit "[" ++ ?x) with ("[" :: x)%char. sp. cbn [app]. f_equal. rewrite <- app_assoc.
    rewrite (lexes_join _ (map stoks ds)).
    + reflexivity.
    + apply Forall2_map2. rewrite Forall_forall in *. auto.
    + reflexivity.
Qed.

(** ** Lines of the long form *)
Definition indent (k : nat) (l : str) : str := repeat " "%char (4 * k) ++ l.
Fixpoint plines (pre suf : str) (d : shape) : list str :=
  match d with
  | Leaf s => [pre ++ s ++ suf]
  | Fields name fs =>
      (pre ++ name ++ lit " {") :: flat_map (fun f => map (indent 1) (plines (fst f ++ lit ": ") (lit ",") (snd f))) fs ++ [lit "}" ++ suf]
  | Tuple name ds =>
      (pre ++ name ++ lit "(") :: flat_map (fun d => map (indent 1) (plines [] (lit ",") d)) ds ++ [lit ")" ++ suf]
  | Many [] => [pre ++ lit "[]" ++ suf]
  | Many ds => (pre ++ lit "[") :: flat_map (fun d => map (indent 1) (plines [] (lit ",") d)) ds ++ [lit "]" ++ suf]
  end.
Lemma indent_S k l : indent k (indent 1 l) = indent (S k) l.
Proof.
  unfold indent. rewrite app_assoc, <- repeat_app. f_equal. f_equal. lia.
Qed.
Lemma indent_0 l : indent 0 l = l. Proof. reflexivity. Qed.
Lemma indent_tidy k l : tidy l -> tidy (indent k l).
Proof.
  intros H. apply tidy_app; [|exact H]. apply tidy_ascii, Forall_forall. intros c Hc. apply repeat_spec in Hc. subst c. vm_compute. split; discriminate.
Qed.
Ltac tlit := apply tidy_lit; reflexivity.
Lemma plines_tidy d : fine d -> forall pre suf, tidy pre -> tidy suf -> Forall tidy (plines pre suf d).
Proof.
  assert (G : forall {X} (f : X -> list str) l, Forall (fun x => Forall tidy (f x)) l -> Forall tidy (flat_map (fun x => map (indent 1) (f x)) l)).
  { intros X f l H. induction H as [|x l H _ IH]; cbn [flat_map]; [constructor|]. apply Forall_app. split; [|exact IH].
    apply Forall_map. eapply Forall_impl; [|exact H]. intros a. apply indent_tidy. }
  induction d as [s|name fs IH|name ds IH|ds IH] using shape_ind2; cbn [fine plines]; intros Hf pre suf Hp Hs.
  - constructor; [|constructor]. destruct Hf as [_ _ Ht]. repeat apply tidy_app; assumption.
  - destruct Hf as (Hn & _ & Hf). rewrite all_Forall in Hf. apply Forall_cons; [|apply Forall_app; split].
    + repeat apply tidy_app; [assumption|now apply named_tidy|tlit].
    + apply G. rewrite Forall_forall in *. intros f Hin. destruct (Hf f Hin) as [Hw Hd]. apply (IH f Hin Hd); [|tlit].
      apply tidy_app; [now apply named_tidy|tlit].
    + constructor; [|constructor]. apply tidy_app; [tlit|assumption].
  - destruct Hf as (Hn & _ & Hf). rewrite all_Forall in Hf. apply Forall_cons; [|apply Forall_app; split].
    + repeat apply tidy_app; [assumption| |tlit]. destruct Hn as [->|Hn]; [tlit|now apply named_tidy].
    + apply (G _ (plines [] (lit ","))). rewrite Forall_forall in *. intros f Hin. apply (IH f Hin (Hf f Hin)); tlit.
    + constructor; [|constructor]. apply tidy_app; [tlit|assumption].
  - destruct ds as [|d0 ds]; [constructor; [|constructor]; repeat apply tidy_app; [assumption|tlit|assumption]|].
    rewrite all_Forall in Hf. apply Forall_cons; [|apply Forall_app; split].
    + apply tidy_app; [assumption|tlit].
    + apply (G _ (plines [] (lit ","))). rewrite Forall_forall in *. intros f Hin. apply (IH f Hin (Hf f Hin)); tlit.
    + constructor; [|constructor]. apply tidy_app; [tlit|assumption].
Qed.

Lemma pad_in l s : ~ In "010"%char l -> pad false (l ++ newline ++ s) = l ++ newline ++ pad true s.
Proof.
  induction l as [|c l IH]; intros H; [reflexivity|]. cbn [app pad In] in *. f_equal.
  destruct (Ascii.eqb_spec c "010") as [->|]; [tauto|]. apply IH. tauto.
Qed.
Lemma pad_lines ls : Forall tidy ls -> pad true (lines ls) = lines (map (indent 1) ls).
Proof.
  induction 1 as [|l ls H _ IH]; [reflexivity|]. cbn [lines flat_map map]. fold (lines ls). fold (lines (map (indent 1) ls)).
  rewrite <- IH, <- !app_assoc. apply tidy_one_line in H. unfold Pf_Messages.one_line in H. destruct l as [|c l]; [reflexivity|].
  cbn [In] in H. cbn [app pad]. destruct (Ascii.eqb_spec c "010") as [->|]; [tauto|]. rewrite pad_in by tauto. reflexivity.
Qed.
Lemma lines_app a b : lines (a ++ b) = lines a ++ lines b.
Proof. unfold lines. apply flat_map_app. Qed.
Lemma pretty_lines d : fine d -> forall pre suf, tidy pre -> tidy suf -> pre ++ pretty d ++ suf ++ newline = lines (plines pre suf d).
Proof.
  induction d as [s|name fs IH|name ds IH|ds IH] using shape_ind2; cbn [fine plines pretty]; intros Hf pre suf Hp Hs.
  - cbn [lines flat_map]. now rewrite app_nil_r, <- !app_assoc.
  - destruct Hf as (Hn & _ & Hf). rewrite all_Forall in Hf. unfold lines. cbn [flat_map]. rewrite <- !app_assoc. do 4 f_equal. fold lines.
    change (flat_map (fun l => l ++ newline) ?x) with (lines x). rewrite lines_app. f_equal; [|cbn [lines flat_map]; now rewrite app_nil_r, <- !app_assoc].
    induction fs as [|f fs IH2]; [reflexivity|]. inversion IH; subst. inversion Hf; subst. cbn [flat_map]. rewrite lines_app. f_equal; [|auto].
    destruct H3 as [Hw Hd]. rewrite <- pad_lines by (apply plines_tidy; [exact Hd|apply tidy_app; [now apply named_tidy|tlit]|tlit]).
    f_equal. rewrite <- H1; [now rewrite <- !app_assoc|exact Hd|apply tidy_app; [now apply named_tidy|tlit]|tlit].
  - destruct Hf as (Hn & _ & Hf). rewrite all_Forall in Hf. unfold lines. cbn [flat_map]. rewrite <- !app_assoc. do 4 f_equal.
    change (flat_map (fun l => l ++ newline) ?x) with (lines x). rewrite lines_app. f_equal; [|cbn [lines flat_map]; now rewrite app_nil_r, <- !app_assoc].
    induction ds as [|f fs IH2]; [reflexivity|]. inversion IH; subst. inversion Hf; subst. cbn [flat_map]. rewrite lines_app. f_equal; [|auto].
    rewrite <- pad_lines by (apply plines_tidy; [assumption|tlit|tlit]). f_equal. rewrite <- H1; [reflexivity|assumption|tlit|tlit].
  - destruct ds as [|d0 ds]; [cbn [lines flat_map]; now rewrite app_nil_r, <- !app_assoc|].
    rewrite all_Forall in Hf. remember (d0 :: ds) as l eqn:El. unfold lines. cbn [flat_map]. rewrite <- !app_assoc. do 3 f_equal.
    change (flat_map (fun l => l ++ newline) ?x) with (lines x). rewrite lines_app. f_equal; [|cbn [lines flat_map]; now rewrite app_nil_r, <- !app_assoc].
    clear El. induction l as [|f fs IH2]; [reflexivity|]. inversion IH; subst. inversion Hf; subst. cbn [flat_map]. rewrite lines_app. f_equal; [|auto].
    rewrite <- pad_lines by (apply plines_tidy; [assumption|tlit|tlit]). f_equal. rewrite <- H1; [reflexivity|assumption|tlit|tlit].
Qed.
Lemma pieces_lines ls : Forall tidy ls -> pieces "010" (lines ls) = ls ++ [[]].
Proof.
  induction 1 as [|l ls H _ IH]; [reflexivity|]. unfold lines. cbn [flat_map]. fold (lines ls). rewrite <- app_assoc.
  rewrite pieces_line by (now apply tidy_one_line in H). now rewrite IH.
Qed.
Lemma pretty_pieces d : fine d -> pieces "010" (pretty d) = plines [] [] d.
Proof.
  intros Hf. assert (T0 : tidy []) by tlit. pose proof (plines_tidy d Hf [] [] T0 T0) as Ht. pose proof (pieces_lines _ Ht) as Hp.
  rewrite <- (pretty_lines d Hf [] [] T0 T0) in Hp. cbn [app] in Hp. unfold newline in Hp. rewrite pieces_cut in Hp.
  now apply app_inj_tail in Hp.
Qed.

(** ** Depth and tokens of each line *)
Fixpoint pld (k : nat) (pts sts : list token) (d : shape) : list (nat * list token) :=
  match d with
  | Leaf s => [(k, pts ++ tokens s ++ sts)]
  | Fields name fs =>
      (k, pts ++ [word name; Mark "{"]) :: flat_map (fun f => pld (S k) [word (fst f); Mark ":"] [Mark ","] (snd f)) fs ++ [(k, Mark "}" :: sts)]
  | Tuple name ds => (k, pts ++ name_tok name ++ [Mark "("]) :: flat_map (fun d => pld (S k) [] [Mark ","] d) ds ++ [(k, Mark ")" :: sts)]
  | Many [] => [(k, pts ++ [Mark "["; Mark "]"] ++ sts)]
  | Many ds => (k, pts ++ [Mark "["]) :: flat_map (fun d => pld (S k) [] [Mark ","] d) ds ++ [(k, Mark "]" :: sts)]
  end%char.
Definition line_is (l : str) (x : nat * list token) : Prop := leading l = (4 * fst x)%nat /\ lexes l (snd x).
Definition preok (pre : str) (pts : list token) : Prop :=
  pre = [] /\ pts = [] \/ exists f, named f /\ pre = f ++ lit ": " /\ pts = [word f; Mark ":"].
Definition sufok (suf : str) (sts : list token) : Prop := suf = [] /\ sts = [] \/ suf = lit "," /\ sts = [Mark ","].
Lemma pre_tokens pre pts r : preok pre pts -> tokens (pre ++ r) = pts ++ tokens r.
Proof.
  intros [[-> ->]|(f & [Hn Hw] & -> & ->)]; [reflexivity|]. rewrite <- app_assoc. rewrite tok_word; [|assumption|assumption|reflexivity].
  cbn [lit list_ascii_of_string app]. now sp.
Qed.
Lemma pre_tidy pre pts : preok pre pts -> tidy pre.
Proof. intros [[-> ->]|(f & Hn & -> & ->)]; [tlit|]. apply tidy_app; [now apply named_tidy|tlit]. Qed.
Lemma pre_starts pre pts s : preok pre pts -> starts s -> starts (pre ++ s).
Proof. intros [[-> ->]|(f & Hn & -> & ->)] H; [exact H|]. rewrite <- app_assoc. now apply named_starts. Qed.
Lemma suf_tokens suf sts r : sufok suf sts -> boundary r -> boundary (suf ++ r) /\ tokens (suf ++ r) = sts ++ tokens r.
Proof.
  intros [[-> ->]|[-> ->]] B; [now split|]. cbn [lit list_ascii_of_string app]. split; [reflexivity|now sp].
Qed.
Lemma leading_indent k l : starts l -> leading (indent k l) = (4 * k)%nat.
Proof.
  unfold indent. generalize (4 * k)%nat as n. intros n H. induction n as [|n IH]; cbn [repeat app leading]; [|now rewrite IH].
  destruct l as [|c l]; [destruct H|]. destruct H as [H _]. cbn [leading]. destruct c as [[] [] [] [] [] [] [] []]; try reflexivity; discriminate H.
Qed.
Lemma leading_closer k c s : In c (lit ")]}") -> leading (indent k (c :: s)) = (4 * k)%nat.
Proof.
  unfold indent. generalize (4 * k)%nat as n. intros n H. induction n as [|n IH]; cbn [repeat app leading]; [|now rewrite IH].
  destruct H as [<-|[<-|[<-|[]]]]; reflexivity.
Qed.
Lemma tokens_indent k l : tokens (indent k l) = tokens l.
Proof.
  unfold indent. generalize (4 * k)%nat as n. induction n as [|n IH]; [reflexivity|]. cbn [repeat app]. now rewrite tok_blank.
Qed.
Lemma line_starts k l ts : starts l -> lexes l ts -> line_is (indent k l) (k, ts).
Proof.
  intros H H1. split; [now apply leading_indent|]. intros r B. cbn [snd]. unfold indent. rewrite <- app_assoc. fold (indent k (l ++ r)).
  rewrite tokens_indent. now apply H1.
Qed.
Lemma line_closer k c s ts : In c (lit ")]}") -> lexes s ts -> line_is (indent k (c :: s)) (k, Mark c :: ts).
Proof.
  intros H H1. split; [now apply leading_closer|]. intros r B. cbn [snd]. unfold indent. rewrite <- app_assoc. fold (indent k ((c :: s) ++ r)).
  rewrite tokens_indent. cbn [app]. destruct H as [<-|[<-|[<-|[]]]]; sp; f_equal; now apply H1.
Qed.
Lemma suf_lexes suf sts : sufok suf sts -> lexes suf sts.
Proof. intros H r B. now apply suf_tokens. Qed.
Lemma Forall2_flat {X Y Y'} (P : Y -> Y' -> Prop) (f : X -> list Y) (g : X -> list Y') l :
  Forall (fun x => Forall2 P (f x) (g x)) l -> Forall2 P (flat_map f l) (flat_map g l).
Proof. induction 1; cbn [flat_map]; [constructor|]. now apply Forall2_app. Qed.
Lemma map_indent_S k ls : map (indent k) (map (indent 1) ls) = map (indent (S k)) ls.
Proof. rewrite map_map. apply map_ext. intros l. apply indent_S. Qed.
Lemma map_flat {X} k (f : X -> list str) l : map (indent k) (flat_map (fun x => map (indent 1) (f x)) l) = flat_map (fun x => map (indent (S k)) (f x)) l.
Proof. induction l as [|x l IH]; [reflexivity|]. cbn [flat_map]. now rewrite map_app, map_indent_S, IH. Qed.
Lemma plines_pld d : fine d -> forall k pre pts suf sts, preok pre pts -> sufok suf sts ->
  Forall2 line_is (map (indent k) (plines pre suf d)) (pld k pts sts d).
Proof.
  assert (C0 : preok [] []) by (left; auto). assert (C1 : sufok (lit ",") [Mark ","]) by (right; auto).
  induction d as [s|name fs IH|name ds IH|ds IH] using shape_ind2; cbn [fine plines pld]; intros Hf k pre pts suf sts Hp Hs.
  - apply Forall2_cons; [|constructor]. apply line_starts.
    + apply (pre_starts pre pts); [exact Hp|]. apply starts_app. apply Hf.
    + intros r B. rewrite <- !app_assoc, (pre_tokens pre pts) by exact Hp. f_equal. destruct (suf_tokens suf sts r Hs B) as [B' E].
      rewrite (sound_lexes s Hf _ B'). now rewrite E.
  - destruct Hf as (Hn & _ & Hf). rewrite all_Forall in Hf. cbn [map]. apply Forall2_cons.
    + apply line_starts; [apply (pre_starts pre pts); [exact Hp|now apply named_starts]|]. intros r B.
      rewrite <- !app_assoc, (pre_tokens pre pts) by exact Hp. f_equal. destruct Hn as [Hn Hw]. rewrite tok_word; [|assumption|assumption|reflexivity].
      cbn [lit list_ascii_of_string app]. now sp.
    + rewrite map_app, map_flat. apply Forall2_app.
      * apply Forall2_flat. rewrite Forall_forall in *. intros f Hin. destruct (Hf f Hin) as [Hw Hd]. apply (IH f Hin Hd); [|exact C1].
        right. exists (fst f). auto.
      * apply Forall2_cons; [|constructor]. apply line_closer; [cbn; tauto|now apply suf_lexes].
  - destruct Hf as (Hn & _ & Hf). rewrite all_Forall in Hf. cbn [map]. apply Forall2_cons.
    + apply line_starts.
      * apply (pre_starts pre pts); [exact Hp|]. destruct Hn as [->|Hn]; [split; reflexivity|now apply named_starts].
      * intros r B. rewrite <- !app_assoc, (pre_tokens pre pts) by exact Hp. f_equal. rewrite name_lexes; [|exact Hn|reflexivity].
        f_equal; cbn [lit list_ascii_of_string app]; now sp.
    + rewrite map_app, map_flat. apply Forall2_app.
      * apply Forall2_flat. rewrite Forall_forall in *. intros f Hin. apply (IH f Hin (Hf f Hin)); assumption.
      * apply Forall2_cons; [|constructor]. apply line_closer; [cbn; tauto|now apply suf_lexes].
  - destruct ds as [|d0 ds].
    + apply Forall2_cons; [|constructor]. apply line_starts; [apply (pre_starts pre pts); [exact Hp|split; reflexivity]|].
      intros r B. rewrite <- !app_assoc, (pre_tokens pre pts) by exact Hp. f_equal. cbn [lit list_ascii_of_string app]. sp.
      do 2 f_equal. now apply suf_tokens.
    + rewrite all_Forall in Hf. remember (d0 :: ds) as l eqn:El. cbn [map]. apply Forall2_cons.
      * apply line_starts; [apply (pre_starts pre pts); [exact Hp|split; reflexivity]|].
        intros r B. rewrite <- !app_assoc, (pre_tokens pre pts) by exact Hp. f_equal; cbn [lit list_ascii_of_string app]; now sp.
      * rewrite map_app, map_flat. apply Forall2_app.
        -- apply Forall2_flat. rewrite Forall_forall in *. intros f Hin. apply (IH f Hin (Hf f Hin)); assumption.
        -- apply Forall2_cons; [|constructor]. apply line_closer; [cbn; tauto|now apply suf_lexes].
Qed.

(** ** Alignment *)
Definition depth_after (k : nat) (ts : list token) : nat := (k + List.length (filter opener ts) - List.length (filter closer ts))%nat.
Definition depth_here (k : nat) (ts : list token) : nat := match ts with t :: _ => if closer t then k - 1 else k | [] => k end.
Fixpoint al (k : nat) (xs : list (nat * list token)) (k' : nat) : Prop :=
  match xs with
  | [] => k = k'
  | x :: xs' => fst x = depth_here k (snd x) /\ al (depth_after k (snd x)) xs' k'
  end.
Lemma al_app a b : forall k k' k'', al k a k' -> al k' b k'' -> al k (a ++ b) k''.
Proof. induction a as [|x a IH]; cbn [al app]; intros k k' k''; [now intros ->|]. intros [H1 H2] H3. eauto. Qed.
Lemma al_aligned ls xs : Forall2 line_is ls xs -> forall k, al k xs 0 -> aligned k ls.
Proof.
  induction 1 as [|l x ls xs [H H1] _ IH]; cbn [al aligned]; [auto|]. intros k [H2 H3].
  specialize (H1 [] I). rewrite tokens_nil, !app_nil_r in H1. rewrite H1. split; [now rewrite H, H2|]. now apply IH.
Qed.
Definition calm (ts : list token) : Prop := Forall (fun t => opener t = false /\ closer t = false) ts.
Lemma calm_filter ts : calm ts -> filter opener ts = [] /\ filter closer ts = [].
Proof. induction 1 as [|t ts [H1 H2] _ [IH1 IH2]]; cbn [filter]; [auto|]. now rewrite H1, H2. Qed.
Lemma calm_app a b : calm a -> calm b -> calm (a ++ b).
Proof. intros. apply Forall_app. auto. Qed.
Lemma word_calm w : opener (word w) = false /\ closer (word w) = false.
Proof. unfold word. destruct (numeral 10 w); auto. Qed.
Lemma pts_calm pre pts : preok pre pts -> calm pts.
Proof. intros [[-> ->]|(f & _ & -> & ->)]; [constructor|]. constructor; [apply word_calm|]. constructor; [auto|constructor]. Qed.
Lemma sts_calm suf sts : sufok suf sts -> calm sts.
Proof. intros [[-> ->]|[-> ->]]; [constructor|]. constructor; [auto|constructor]. Qed.
Lemma name_calm name : calm (name_tok name).
Proof. destruct name; [constructor|]. constructor; [apply word_calm|constructor]. Qed.
Lemma sound_tokens s : sound s -> exists t, not_mark t /\ tokens s = [t].
Proof. intros [(t & H & H1) _ _]. exists t. split; [exact H|]. specialize (H1 [] I). now rewrite app_nil_r in H1. Qed.
Lemma calm_here k ts r : calm ts -> ts <> [] -> depth_here k (ts ++ r) = k.
Proof. intros [|t l [_ H] _] E; [now elim E|]. cbn [app depth_here]. now rewrite H. Qed.
Lemma open_here k ts c r : calm ts -> closer (Mark c) = false -> depth_here k (ts ++ Mark c :: r) = k.
Proof. intros H Hc. destruct ts as [|t ts]; [cbn [app depth_here]; now rewrite Hc|]. now apply calm_here. Qed.
Lemma pld_al d : fine d -> forall k pre pts suf sts, preok pre pts -> sufok suf sts -> al k (pld k pts sts d) k.
Proof.
  assert (C0 : preok [] []) by (left; auto). assert (C1 : sufok (lit ",") [Mark ","]) by (right; auto).
  assert (Op : forall k ts c, calm ts -> opener (Mark c) = true -> closer (Mark c) = false -> depth_after k (ts ++ [Mark c]) = S k).
  { intros k ts c H H1 H2. unfold depth_after. rewrite !filter_app. destruct (calm_filter ts H) as [-> ->]. cbn [app filter]. rewrite H1, H2. cbn. lia. }
  assert (Cl : forall k c sts, calm sts -> opener (Mark c) = false -> closer (Mark c) = true -> al (S k) [(k, Mark c :: sts)] k).
  { intros k c sts H H1 H2. cbn [al fst snd]. unfold depth_here, depth_after. cbn [filter]. rewrite H1, H2. destruct (calm_filter sts H) as [-> ->].
    cbn [List.length]. split; lia. }
  assert (It : forall {X} (f : X -> list (nat * list token)) k l, Forall (fun x => al k (f x) k) l -> al k (flat_map f l) k).
  { intros X f k l H. induction H; [reflexivity|]. cbn [flat_map]. eapply al_app; eauto. }
  induction d as [s|name fs IH|name ds IH|ds IH] using shape_ind2; cbn [fine pld]; intros Hf k pre pts suf sts Hp Hs;
    pose proof (pts_calm _ _ Hp) as Kp; pose proof (sts_calm _ _ Hs) as Ks.
  - destruct (sound_tokens s Hf) as (t & Ht & E). rewrite E.
    assert (K : calm (pts ++ [t] ++ sts)). { apply calm_app; [exact Kp|]. apply calm_app; [|exact Ks]. constructor; [destruct t; auto; destruct Ht|constructor]. }
    cbn [al fst snd]. split.
    + symmetry. rewrite <- (app_nil_r (pts ++ _)). apply calm_here; [exact K|]. now destruct pts.
    + unfold depth_after. destruct (calm_filter _ K) as [-> ->]. cbn. lia.
  - destruct Hf as (Hn & _ & Hf). rewrite all_Forall in Hf. change [word name; Mark "{"] with ([word name] ++ [Mark "{"]). rewrite app_assoc.
    assert (K : calm (pts ++ [word name])) by (apply calm_app; [exact Kp|constructor; [apply word_calm|constructor]]).
    cbn [al fst snd]. split; [symmetry; now apply open_here|]. rewrite Op by (auto; fail). eapply al_app; [|apply Cl; auto].
    apply It. rewrite Forall_forall in *. intros f Hin. destruct (Hf f Hin) as [Hw Hd].
    apply (IH f Hin Hd _ (fst f ++ lit ": ") _ (lit ",")); [|exact C1]. right. exists (fst f). auto.
  - destruct Hf as (Hn & _ & Hf). rewrite all_Forall in Hf. rewrite app_assoc.
    assert (K : calm (pts ++ name_tok name)) by (apply calm_app; [exact Kp|apply name_calm]).
    cbn [al fst snd]. split; [symmetry; now apply open_here|]. rewrite Op by (auto; fail). eapply al_app; [|apply Cl; auto].
    apply It. rewrite Forall_forall in *. intros f Hin. apply (IH f Hin (Hf f Hin) _ [] _ (lit ",")); assumption.
  - destruct ds as [|d0 ds].
    + cbn [al fst snd]. split; [symmetry; cbn [app]; now apply open_here|]. unfold depth_after. rewrite !filter_app.
      destruct (calm_filter _ Kp) as [-> ->]. destruct (calm_filter _ Ks) as [-> ->]. cbn. lia.
    + rewrite all_Forall in Hf. remember (d0 :: ds) as l eqn:El.
      cbn [al fst snd]. split; [symmetry; now apply open_here|]. rewrite Op by (auto; fail). eapply al_app; [|apply Cl; auto].
      apply It. rewrite Forall_forall in *. intros f Hin. apply (IH f Hin (Hf f Hin) _ [] _ (lit ",")); assumption.
Qed.

(** ** Commas *)
Definition quiet_commas (ts : list token) : Prop := Forall (fun t => t <> Mark ",") (removelast ts).
Definition no_comma (ts : list token) : Prop := Forall (fun t => t <> Mark ",") ts.
Lemma removelast_no ts : no_comma ts -> quiet_commas ts.
Proof. unfold quiet_commas, no_comma. intros H. apply Forall_forall. intros t Ht. rewrite Forall_forall in H. apply H. 
  destruct ts as [|x ts] using rev_ind; [destruct Ht|]. rewrite removelast_last in Ht. apply in_or_app. now left. Qed.
Lemma quiet_suf ts suf sts : no_comma ts -> sufok suf sts -> quiet_commas (ts ++ sts).
Proof.
  intros H [[-> ->]|[-> ->]]; [rewrite app_nil_r; now apply removelast_no|]. unfold quiet_commas. now rewrite removelast_last.
Qed.
Lemma word_no w : word w <> Mark ",".
Proof. unfold word. destruct (numeral 10 w); discriminate. Qed.
Lemma pts_no pre pts : preok pre pts -> no_comma pts.
Proof. intros [[-> ->]|(f & _ & -> & ->)]; [constructor|]. constructor; [apply word_no|]. constructor; [discriminate|constructor]. Qed.
Lemma name_no name : no_comma (name_tok name).
Proof. destruct name; [constructor|]. constructor; [apply word_no|constructor]. Qed.
Lemma no_app a b : no_comma a -> no_comma b -> no_comma (a ++ b).
Proof. intros. apply Forall_app. auto. Qed.
Lemma mark_no c : Ascii.eqb c "," = false -> no_comma [Mark c].
Proof. intros H. constructor; [|constructor]. intros E. injection E as ->. discriminate H. Qed.
Lemma Forall_flat {X Y} (P : Y -> Prop) (f : X -> list Y) l : Forall (fun x => Forall P (f x)) l -> Forall P (flat_map f l).
Proof. induction 1; cbn [flat_map]; [constructor|]. apply Forall_app. auto. Qed.
Lemma pld_commas d : fine d -> forall k pre pts suf sts, preok pre pts -> sufok suf sts -> Forall (fun x => quiet_commas (snd x)) (pld k pts sts d).
Proof.
  assert (C0 : preok [] []) by (left; auto). assert (C1 : sufok (lit ",") [Mark ","]) by (right; auto).
  induction d as [s|name fs IH|name ds IH|ds IH] using shape_ind2; cbn [fine pld]; intros Hf k pre pts suf sts Hp Hs;
    pose proof (pts_no _ _ Hp) as Kp.
  - destruct (sound_tokens s Hf) as (t & Ht & E). rewrite E. constructor; [|constructor]. cbn [snd]. rewrite app_assoc. eapply quiet_suf; [|exact Hs].
    apply no_app; [exact Kp|]. constructor; [|constructor]. intros ->. destruct Ht.
  - destruct Hf as (Hn & _ & Hf). rewrite all_Forall in Hf. apply Forall_cons; [|apply Forall_app; split].
    + cbn [snd]. apply removelast_no, no_app; [exact Kp|]. constructor; [apply word_no|now apply mark_no].
    + apply Forall_flat. rewrite Forall_forall in *. intros f Hin. destruct (Hf f Hin) as [Hw Hd].
      apply (IH f Hin Hd _ (fst f ++ lit ": ") _ (lit ",")); [|exact C1]. right. exists (fst f). auto.
    + constructor; [|constructor]. cbn [snd]. apply (quiet_suf [Mark "}"] suf sts); [now apply mark_no|exact Hs].
  - destruct Hf as (Hn & _ & Hf). rewrite all_Forall in Hf. apply Forall_cons; [|apply Forall_app; split].
    + cbn [snd]. apply removelast_no, no_app; [exact Kp|]. apply no_app; [apply name_no|now apply mark_no].
    + apply Forall_flat. rewrite Forall_forall in *. intros f Hin. apply (IH f Hin (Hf f Hin) _ [] _ (lit ",")); assumption.
    + constructor; [|constructor]. cbn [snd]. apply (quiet_suf [Mark ")"] suf sts); [now apply mark_no|exact Hs].
  - destruct ds as [|d0 ds].
    + constructor; [|constructor]. cbn [snd]. rewrite app_assoc. eapply quiet_suf; [|exact Hs]. apply no_app; [exact Kp|].
      constructor; [discriminate|now apply mark_no].
    + rewrite all_Forall in Hf. remember (d0 :: ds) as l eqn:El. apply Forall_cons; [|apply Forall_app; split].
      * cbn [snd]. apply removelast_no, no_app; [exact Kp|now apply mark_no].
      * apply Forall_flat. rewrite Forall_forall in *. intros f Hin. apply (IH f Hin (Hf f Hin) _ [] _ (lit ",")); assumption.
      * constructor; [|constructor]. cbn [snd]. apply (quiet_suf [Mark "]"] suf sts); [now apply mark_no|exact Hs].
Qed.

(** ** The tokens of the long form *)
Lemma lines_join ls : ls <> [] -> lines ls = join newline ls ++ newline.
Proof.
  induction ls as [|l ls IH]; intros E; [now elim E|]. cbn [lines flat_map join]. fold (lines ls). destruct ls as [|l' ls].
  - cbn [lines flat_map]. now rewrite app_nil_r.
  - rewrite IH by discriminate. now rewrite <- !app_assoc.
Qed.
Lemma plines_some d pre suf : plines pre suf d <> [].
Proof. destruct d as [s|name fs|name ds|[|d ds]]; discriminate. Qed.
Lemma pretty_join d : fine d -> pretty d = join newline (plines [] [] d).
Proof.
  intros Hf. assert (T0 : tidy []) by tlit. pose proof (pretty_lines d Hf [] [] T0 T0) as H. rewrite lines_join in H by apply plines_some.
  cbn [app] in H. now apply app_inv_tail in H.
Qed.
Lemma tokens_join ls xs : Forall2 line_is ls xs -> tokens (join newline ls) = flat_map snd xs.
Proof.
  induction 1 as [|l x ls xs [_ H] H1 IH]; [reflexivity|]. cbn [join flat_map]. destruct H1 as [|l' x' ls xs H1 H2].
  - specialize (H [] I). now rewrite app_nil_r in H.
  - rewrite H by reflexivity. f_equal. rewrite <- IH. unfold newline. cbn [app]. now rewrite tok_blank.
Qed.
Lemma untrailed_cons t ts : is_mark (lit ",") t = false -> untrailed (t :: ts) = t :: untrailed ts.
Proof. intros H. cbn [untrailed]. destruct ts; [reflexivity|]. now rewrite H. Qed.
Lemma untrailed_calm ts r : no_comma ts -> untrailed (ts ++ r) = ts ++ untrailed r.
Proof.
  induction 1 as [|t ts H _ IH]; [reflexivity|]. cbn [app]. rewrite untrailed_cons, IH; [reflexivity|].
  destruct t as [| | |c]; try reflexivity. cbn. destruct (Ascii.eqb_spec c ","); [subst; now elim H|reflexivity].
Qed.
Definition first_closer (ts : list token) : bool := match ts with t :: _ => closer t | [] => true end.
Lemma untrailed_comma ts : untrailed (Mark "," :: ts) = match ts with [] => [Mark ","] | t :: _ => if closer t then untrailed ts else Mark "," :: untrailed ts end.
Proof. destruct ts; reflexivity. Qed.
Lemma pld_tokens d : fine d -> forall k pre pts suf sts, preok pre pts -> sufok suf sts -> forall r,
  untrailed (flat_map snd (pld k pts sts d) ++ r) = pts ++ stoks d ++ untrailed (sts ++ r).
Proof.
  assert (C0 : preok [] []) by (left; auto). assert (C1 : sufok (lit ",") [Mark ","]) by (right; auto).
  (* Entries, each followed by a comma, up to a closing bracket. *)
  assert (It : forall {X} (f : X -> list (nat * list token)) (g : X -> list token) c l, l <> [] -> closer (Mark c) = true ->
    Forall (fun x => first_closer (flat_map snd (f x)) = false /\ forall r, untrailed (flat_map snd (f x) ++ r) = g x ++ untrailed (Mark "," :: r)) l ->
    forall r, untrailed (flat_map snd (flat_map f l) ++ Mark c :: r) = with_commas (map g l) ++ untrailed (Mark c :: r)).
  { intros X f g c l E Hc H r. induction H as [|x l [H0 H] H1 IH]; [now elim E|]. cbn [flat_map map with_commas]. rewrite flat_map_app, <- app_assoc.
    rewrite H, untrailed_comma. destruct l as [|y l].
    - cbn [flat_map app map]. rewrite Hc. reflexivity.
    - cbn [map] in *. specialize (IH ltac:(discriminate)). rewrite <- app_assoc. f_equal. cbn [app]. rewrite <- IH.
      inversion H1 as [|? ? [H2 _] _]; subst. cbn [flat_map]. rewrite flat_map_app. destruct (flat_map snd (f y)) as [|t ts]; [discriminate H2|]. cbn [app first_closer] in *. now rewrite H2. }
  assert (Fc : forall d k pre pts suf sts, fine d -> preok pre pts -> sufok suf sts -> first_closer (flat_map snd (pld k pts sts d)) = false).
  { clear d. intros d k pre pts suf sts Hf Hp _. destruct Hp as [[-> ->]|(f & _ & -> & ->)].
    - destruct d as [s|name fs|name ds|[|d ds]]; cbn [pld flat_map snd app].
      + cbn [fine] in Hf. destruct (sound_tokens s Hf) as (t & Ht & ->). cbn. now destruct t.
      + apply word_calm.
      + destruct name; [reflexivity|]. apply word_calm.
      + reflexivity.
      + reflexivity.
    - destruct d as [s|name fs|name ds|[|d ds]]; cbn [pld flat_map snd app]; apply word_calm. }
  induction d as [s|name fs IH|name ds IH|ds IH] using shape_ind2; cbn [fine pld stoks]; intros Hf k pre pts suf sts Hp Hs r;
    pose proof (pts_no _ _ Hp) as Kp.
  - destruct (sound_tokens s Hf) as (t & Ht & ->). cbn [flat_map snd]. rewrite app_nil_r, <- !app_assoc. rewrite untrailed_calm by exact Kp. f_equal.
    cbn [app]. apply untrailed_cons. now destruct t.
  - destruct Hf as (Hn & En & Hf). rewrite all_Forall in Hf. cbn [flat_map snd]. rewrite flat_map_app. cbn [flat_map snd]. rewrite app_nil_r, <- !app_assoc.
    rewrite untrailed_calm by exact Kp. f_equal. cbn [app]. rewrite untrailed_cons by (unfold word; now destruct (numeral 10 name)). rewrite untrailed_cons by reflexivity. do 2 f_equal.
    rewrite (It _ _ (fun f => word (fst f) :: Mark ":" :: stoks (snd f))); [|exact En|reflexivity|].
    + rewrite <- app_assoc. f_equal. cbn [app]. now apply untrailed_cons.
    + rewrite Forall_forall in *. intros f Hin. destruct (Hf f Hin) as [Hw Hd].
      assert (C2 : preok (fst f ++ lit ": ") [word (fst f); Mark ":"]) by (right; exists (fst f); auto).
      split; [exact (Fc _ _ _ _ _ _ Hd C2 C1)|]. intros r'. now rewrite (IH f Hin Hd _ _ _ _ _ C2 C1).
  - destruct Hf as (Hn & En & Hf). rewrite all_Forall in Hf. cbn [flat_map snd]. rewrite flat_map_app. cbn [flat_map snd]. rewrite app_nil_r, <- !app_assoc.
    rewrite untrailed_calm by exact Kp. f_equal. rewrite untrailed_calm by apply name_no. f_equal. cbn [app]. rewrite untrailed_cons by reflexivity. f_equal.
    rewrite (It _ _ stoks); [|exact En|reflexivity|].
    + rewrite <- app_assoc. f_equal. cbn [app]. now apply untrailed_cons.
    + rewrite Forall_forall in *. intros f Hin. pose proof (Hf f Hin) as Hd.
      split; [exact (Fc _ _ _ _ _ _ Hd C0 C1)|]. intros r'. now rewrite (IH f Hin Hd _ _ _ _ _ C0 C1).
  - destruct ds as [|d0 ds].
    + cbn [flat_map snd map with_commas]. rewrite app_nil_r, <- !app_assoc. rewrite untrailed_calm by exact Kp. f_equal.
      cbn [app]. rewrite untrailed_cons by reflexivity. f_equal. now apply untrailed_cons.
    + rewrite all_Forall in Hf. remember (d0 :: ds) as l eqn:El. assert (En : l <> []) by (subst; discriminate).
      cbn [flat_map snd]. rewrite flat_map_app. cbn [flat_map snd]. rewrite app_nil_r, <- !app_assoc.
      rewrite untrailed_calm by exact Kp. f_equal. cbn [app]. rewrite untrailed_cons by reflexivity. f_equal.
      rewrite (It _ _ stoks); [|exact En|reflexivity|].
      * rewrite <- app_assoc. f_equal. cbn [app]. now apply untrailed_cons.
      * rewrite Forall_forall in *. intros f Hin. pose proof (Hf f Hin) as Hd.
        split; [exact (Fc _ _ _ _ _ _ Hd C0 C1)|]. intros r'. now rewrite (IH f Hin Hd _ _ _ _ _ C0 C1).
Qed.
Lemma map_indent_0 ls : map (indent 0) ls = ls.
Proof. rewrite <- (map_id ls) at 2. apply map_ext. reflexivity. Qed.
Lemma pretty_is d : fine d -> Forall2 line_is (plines [] [] d) (pld 0 [] [] d).
Proof.
  intros Hf. rewrite <- (map_indent_0 (plines [] [] d)). apply plines_pld; [exact Hf|left; auto|left; auto].
Qed.
Lemma pretty_tokens d : fine d -> untrailed (tokens (pretty d)) = stoks d.
Proof.
  intros Hf. rewrite pretty_join by exact Hf. rewrite (tokens_join _ _ (pretty_is d Hf)).
  pose proof (pld_tokens d Hf 0 [] [] [] [] (or_introl (conj eq_refl eq_refl)) (or_introl (conj eq_refl eq_refl)) []) as H.
  rewrite !app_nil_r in H. cbn [app untrailed] in H. now rewrite ?app_nil_r in H.
Qed.

(** ** One line *)
Definition gap (s : str) : str := if last_is (lit ",{") s then lit " " else [].
Lemma skip_indent k l : starts l -> skipn (leading (indent k l)) (indent k l) = l.
Proof.
  intros H. rewrite leading_indent by exact H. unfold indent. rewrite skipn_app, repeat_length, Nat.sub_diag.
  rewrite (skipn_all2 (repeat _ _)) by (now rewrite repeat_length). reflexivity.
Qed.
Lemma skip_closer k c s : In c (lit ")]}") -> skipn (leading (indent k (c :: s))) (indent k (c :: s)) = c :: s.
Proof.
  intros H. rewrite leading_closer by exact H. unfold indent. rewrite skipn_app, repeat_length, Nat.sub_diag.
  rewrite (skipn_all2 (repeat _ _)) by (now rewrite repeat_length). reflexivity.
Qed.
Lemma continue_starts s k l : starts l -> continue s (indent k l) = s ++ gap s ++ l.
Proof.
  intros H. unfold continue. rewrite skip_indent by exact H. destruct l as [|c l]; [destruct H|]. destruct H as [_ H]. cbn [first_is].
  change (lit ")]}") with brackets. rewrite H. reflexivity.
Qed.
Lemma last_is_app cs s c : last_is cs (s ++ [c]) = existsb (Ascii.eqb c) cs.
Proof. unfold last_is. now rewrite rev_unit. Qed.
Lemma gap_last s c : gap (s ++ [c]) = if existsb (Ascii.eqb c) (lit ",{") then lit " " else [].
Proof. unfold gap. now rewrite last_is_app. Qed.
Lemma gap_2 a b c d : gap (a ++ b ++ c ++ [d]) = if existsb (Ascii.eqb d) (lit ",{") then lit " " else [].
Proof. rewrite !app_assoc. apply gap_last. Qed.
Lemma continue_closer s k c suf : In c (lit ")]}") ->
  continue (s ++ lit ",") (indent k (c :: suf)) = s ++ (if Ascii.eqb c "}" then lit " " else []) ++ c :: suf.
Proof.
  intros H. unfold continue. rewrite skip_closer by exact H. change (lit ",") with [","%char]. rewrite last_is_app, removelast_last.
  destruct H as [<-|[<-|[<-|[]]]]; reflexivity.
Qed.
Lemma compact_starts d : fine d -> starts (compact d).
Proof.
  destruct d as [s|name fs|name ds|ds]; cbn [fine compact].
  - apply sound_start.
  - intros (Hn & _). now apply named_starts.
  - intros ([->|Hn] & _); [split; reflexivity|now apply named_starts].
  - split; reflexivity.
Qed.
Lemma flat_one d : fine d -> forall k pre pts suf s, preok pre pts ->
  fold_left continue (map (indent k) (plines pre suf d)) s = s ++ gap s ++ pre ++ compact d ++ suf.
Proof.
  assert (C0 : preok [] []) by (left; auto).
  assert (It : forall {X} (f : X -> list str) (g : X -> str) k l, l <> [] ->
    Forall (fun x => forall s, fold_left continue (map (indent (S k)) (f x)) s = s ++ gap s ++ g x ++ lit ",") l ->
    forall s, fold_left continue (map (indent k) (flat_map (fun x => map (indent 1) (f x)) l)) s = s ++ gap s ++ join (lit ", ") (map g l) ++ lit ",").
  { intros X f g k l E H. induction H as [|x l H H1 IH]; [now elim E|]. intros s. cbn [flat_map map join].
    rewrite map_app, fold_left_app, map_indent_S, H. destruct l as [|y l]; [reflexivity|]. rewrite IH by discriminate.
    change (gap (s ++ gap s ++ g x ++ lit ",")) with (gap (s ++ gap s ++ g x ++ [","%char])). rewrite gap_2. cbn [map]. rewrite <- !app_assoc. reflexivity. }
  induction d as [t|name fs IH|name ds IH|ds IH] using shape_ind2; cbn [fine plines compact]; intros Hf k pre pts suf s Hp.
  - cbn [map fold_left]. apply continue_starts. apply (pre_starts pre pts); [exact Hp|]. apply starts_app, Hf.
  - destruct Hf as (Hn & En & Hf). rewrite all_Forall in Hf. cbn [map fold_left].
    rewrite continue_starts by (apply (pre_starts pre pts); [exact Hp|now apply named_starts]).
    rewrite map_app, fold_left_app. rewrite (It _ _ (fun f => fst f ++ lit ": " ++ compact (snd f))); [|exact En|].
    + cbn [map fold_left]. assert (G : gap (s ++ gap s ++ pre ++ name ++ lit " {") = lit " ").
      { change (lit " {") with (lit " " ++ ["{"%char]). rewrite (app_assoc name), (app_assoc pre). apply gap_2. }
      rewrite G. rewrite !app_assoc. change (lit "}" ++ suf) with ("}"%char :: suf). rewrite continue_closer by (cbn; tauto).
      rewrite <- !app_assoc. reflexivity.
    + rewrite Forall_forall in *. intros f Hin s'. destruct (Hf f Hin) as [Hw Hd].
      rewrite (IH f Hin Hd _ _ [word (fst f); Mark ":"]); [now rewrite <- !app_assoc|]. right. exists (fst f). auto.
  - destruct Hf as (Hn & En & Hf). rewrite all_Forall in Hf. cbn [map fold_left].
    rewrite continue_starts by (apply (pre_starts pre pts); [exact Hp|]; destruct Hn as [->|Hn]; [split; reflexivity|now apply named_starts]).
    rewrite map_app, fold_left_app. rewrite (It _ _ compact); [|exact En|].
    + cbn [map fold_left]. assert (G : gap (s ++ gap s ++ pre ++ name ++ lit "(") = []).
      { rewrite (app_assoc pre). apply gap_2. }
      rewrite G. rewrite !app_assoc. change (lit ")" ++ suf) with (")"%char :: suf). rewrite continue_closer by (cbn; tauto).
      rewrite <- !app_assoc. reflexivity.
    + rewrite Forall_forall in *. intros f Hin s'. now rewrite (IH f Hin (Hf f Hin) _ [] []).
  - destruct ds as [|d0 ds].
    + cbn [map fold_left join app]. apply continue_starts. apply (pre_starts pre pts); [exact Hp|split; reflexivity].
    + rewrite all_Forall in Hf. remember (d0 :: ds) as l eqn:El. assert (En : l <> []) by (subst; discriminate). cbn [map fold_left].
      rewrite continue_starts by (apply (pre_starts pre pts); [exact Hp|split; reflexivity]).
      rewrite map_app, fold_left_app. rewrite (It _ _ compact); [|exact En|].
      * cbn [map fold_left]. assert (G : gap (s ++ gap s ++ pre ++ lit "[") = []) by apply gap_2.
        rewrite G. rewrite !app_assoc. change (lit "]" ++ suf) with ("]"%char :: suf). rewrite continue_closer by (cbn; tauto).
        rewrite <- !app_assoc. reflexivity.
      * rewrite Forall_forall in *. intros f Hin s'. now rewrite (IH f Hin (Hf f Hin) _ [] []).
Qed.
Lemma compact_tidy d : fine d -> tidy (compact d).
Proof.
  assert (J : forall xs, Forall tidy xs -> tidy (join (lit ", ") xs)).
  { induction 1 as [|x xs H H1 IH]; [tlit|]. cbn [join]. destruct xs; [exact H|]. repeat apply tidy_app; [exact H|tlit|exact IH]. }
  induction d as [s|name fs IH|name ds IH|ds IH] using shape_ind2; cbn [fine compact]; intros Hf.
  - apply Hf.
  - destruct Hf as (Hn & _ & Hf). rewrite all_Forall in Hf. repeat apply tidy_app; [now apply named_tidy|tlit| |tlit].
    apply J, Forall_map. rewrite Forall_forall in *. intros f Hin. destruct (Hf f Hin) as [Hw Hd].
    repeat apply tidy_app; [now apply named_tidy|tlit|now apply (IH f Hin)].
  - destruct Hf as (Hn & _ & Hf). rewrite all_Forall in Hf. repeat apply tidy_app; [|tlit| |tlit].
    + destruct Hn as [->|Hn]; [tlit|now apply named_tidy].
    + apply J, Forall_map. rewrite Forall_forall in *. auto.
  - rewrite all_Forall in Hf. repeat apply tidy_app; [tlit| |tlit]. apply J, Forall_map. rewrite Forall_forall in *. auto.
Qed.

(** ** The program's values *)
Lemma digit_wordly c : In c (lit "0123456789") -> wordly c = true.
Proof. cbn [lit list_ascii_of_string In]. intros H. repeat (destruct H as [<-|H]; [reflexivity|]). destruct H. Qed.
Lemma dec_wordly n : forallb wordly (fmt_dec n) = true.
Proof. apply forallb_forall. intros c Hc. now apply digit_wordly, (dec_chars n). Qed.
Lemma dec_word n : word (fmt_dec n) = Number n.
Proof. unfold word. unfold fmt_dec. rewrite fmt_radix_numeral; [reflexivity|now left]. Qed.
Lemma dec_some n : fmt_dec n <> [].
Proof. apply fmt_radix_nonempty. now left. Qed.
Lemma word_sound w : named w -> sound w.
Proof.
  intros [Hn Hw]. split.
  - exists (word w). split; [unfold word; now destruct (numeral 10 w)|]. intros r B. now apply tok_word.
  - rewrite <- (app_nil_r w). now apply named_starts.
  - now apply named_tidy.
Qed.
Lemma int_sound n : sound (fmt_dec n).
Proof. apply word_sound. split; [apply dec_some|apply dec_wordly]. Qed.
Lemma lit_sound w : w <> [] -> forallb wordly w = true -> sound w.
Proof. intros. now apply word_sound. Qed.
Lemma text_sound (U : Unicode) s : unicode s -> sound (debug_str s).
Proof.
  intros H. split.
  - exists (Text s). split; [exact I|]. intros r _. apply tok_text. now apply quotes_debug.
  - split; reflexivity.
  - now apply debug_tidy.
Qed.
Lemma tokens_int n : tokens (fmt_dec n) = [Number n].
Proof. rewrite <- (app_nil_r (fmt_dec n)), tok_word; [now rewrite dec_word|apply dec_some|apply dec_wordly|exact I]. Qed.
Lemma tokens_text (U : Unicode) s : unicode s -> tokens (debug_str s) = [Text s].
Proof. intros H. rewrite <- (app_nil_r (debug_str s)), (tok_text s); [reflexivity|]. now apply quotes_debug. Qed.
Ltac nm := split; [discriminate|reflexivity].
Ltac leaf := apply lit_sound; [discriminate|reflexivity].
Lemma fine_int n : fine (shape_int n). Proof. apply int_sound. Qed.
Lemma fine_opt o : fine (shape_opt o).
Proof.
  destruct o as [p|]; cbn [shape_opt fine all fold_right]; [|leaf]. repeat apply conj; try exact I; [right; nm|discriminate|apply int_sound].
Qed.
Lemma fine_v4 a : fine (shape_v4 a).
Proof. cbn [shape_v4 fine all fold_right fst snd]. repeat apply conj; try exact I; try discriminate; try reflexivity. apply int_sound. Qed.
Lemma fine_v6 a : fine (shape_v6 a).
Proof. cbn [shape_v6 fine all fold_right fst snd]. repeat apply conj; try exact I; try discriminate; try reflexivity; apply int_sound. Qed.
Lemma fine_net {A} (f : A -> shape) (n : network A) : (forall a, fine (f a)) -> fine (shape_net f n).
Proof.
  intros H. unfold shape_net. cbn [fine all fold_right fst snd]. repeat apply conj; try exact I; try discriminate; try reflexivity; try apply H. apply fine_opt.
Qed.
Lemma fine_pair {A} (f : A -> shape) p : (forall a, fine (f a)) -> fine (shape_pair f p).
Proof.
  intros H. unfold shape_pair. split; [now left|]. split; [discriminate|]. apply all_Forall. constructor; [apply H|]. constructor; [now apply fine_net|constructor].
Qed.
Lemma fine_tuple1 name d : named name -> fine d -> fine (Tuple name [d]).
Proof. intros H H1. cbn [fine all fold_right]. repeat apply conj; try exact I; [now right|discriminate|exact H1]. Qed.
Lemma fine_tuple name ds : named name -> ds <> [] -> Forall fine ds -> fine (Tuple name ds).
Proof. intros H H1 H2. cbn [fine]. repeat apply conj; [now right|exact H1|now apply all_Forall]. Qed.
Lemma fine_many {X} (f : X -> shape) l : (forall x, fine (f x)) -> fine (Many (map f l)).
Proof. intros H. cbn [fine]. apply all_Forall, Forall_map, Forall_forall. auto. Qed.
Lemma fine_int_error e : fine (shape_int_error e).
Proof. unfold shape_int_error. cbn [fine all fold_right fst snd]. repeat apply conj; try exact I; try discriminate; try reflexivity. destruct e; leaf. Qed.
Ltac tup := apply fine_tuple; [nm|discriminate|repeat (apply Forall_cons; [auto using fine_int, fine_int_error|]); apply Forall_nil].
Lemma fine_addr_error (U : Unicode) e : addr_error_fine e -> fine (shape_addr_error e).
Proof.
  destruct e; cbn [shape_addr_error addr_error_fine]; intros H; try tup; [leaf|].
  apply fine_tuple; [nm|discriminate|]. repeat apply Forall_cons; [apply fine_int|now apply text_sound|apply fine_int_error|apply Forall_nil].
Qed.
Lemma fine_of (U : Unicode) d : datum_fine d -> fine (shape_of d).
Proof.
  destruct d as [a|a|n|n|[a|a]|[a n|a n]|[| |l|l]|[p|m|m]|c|e|e|[s|e|e|e|g m]]; cbn [shape_of datum_fine shape_parsed shape_spec shape_specs shape_subnet shape_netspec_error]; intros H;
    auto using fine_v4, fine_v6, fine_net, fine_int_error, fine_addr_error.
  1, 2: apply fine_tuple1; [nm|auto using fine_v4, fine_v6].
  1, 2: apply fine_tuple; [nm|discriminate|repeat (apply Forall_cons; [auto using fine_v4, fine_v6, fine_net|]); apply Forall_nil].
  1, 2: leaf.
  1, 2: apply fine_tuple1; [nm|]; apply fine_many; intros; apply fine_pair; auto using fine_v4, fine_v6.
  1, 2, 3: apply fine_tuple1; [nm|auto using fine_int, fine_v4, fine_v6].
  - destruct c; leaf.
  - apply fine_tuple1; [nm|now apply text_sound].
  - apply fine_tuple1; [nm|now apply fine_addr_error].
  - apply fine_tuple1; [nm|now apply fine_addr_error].
  - apply fine_tuple1; [nm|apply fine_int_error].
  - tup.
Qed.

Lemma spelled_eq p xs t : tokens (lit p) = t -> spelled p xs = fill_tokens t xs.
Proof. now intros <-. Qed.
Ltac spell := repeat match goal with |- context [spelled ?p ?xs] =>
  let t := eval vm_compute in (tokens (lit p)) in rewrite (spelled_eq p xs t) by (vm_compute; reflexivity) end;
  cbn [fill_tokens].
Ltac spell_in E := repeat match type of E with context [spelled ?p ?xs] =>
  let t := eval vm_compute in (tokens (lit p)) in rewrite (spelled_eq p xs t) in E by (vm_compute; reflexivity) end;
  cbn [fill_tokens] in E.
Ltac words := repeat match goal with |- context [word (lit ?p)] =>
  let t := eval vm_compute in (word (lit p)) in replace (word (lit p)) with t by (vm_compute; reflexivity) end.
Ltac leaves := repeat match goal with |- context [tokens (lit ?p)] =>
  let t := eval vm_compute in (tokens (lit p)) in replace (tokens (lit p)) with t by (vm_compute; reflexivity) end.
Ltac names := repeat match goal with |- context [name_tok (lit ?p)] =>
  let t := eval vm_compute in (name_tok (lit p)) in replace (name_tok (lit p)) with t by (vm_compute; reflexivity) end.
Ltac fl := repeat (progress (cbn [app]; rewrite <- ?app_assoc)).
Ltac st := cbn [shape_int shape_opt stoks map fst snd with_commas app name_tok]; rewrite ?tokens_int; leaves; words; names.
Lemma stoks_v4 a : stoks (shape_v4 a) = tokens_v4 a.
Proof. unfold shape_v4, tokens_v4, number. st. spell. reflexivity. Qed.
Lemma stoks_v6 a : stoks (shape_v6 a) = tokens_v6 a.
Proof. unfold shape_v6, tokens_v6, number. st. spell. reflexivity. Qed.
Lemma stoks_net {A} (f : A -> shape) g (n : network A) : (forall a, stoks (f a) = g a) -> stoks (shape_net f n) = tokens_net g n.
Proof.
  intros H. unfold shape_net, tokens_net, number. cbn [stoks map fst snd with_commas]. rewrite !H. destruct (cidr_prefix n); st; spell; fl; reflexivity.
Qed.
Lemma stoks_pair2 d d' : stoks (Tuple [] [d; d']) = Mark "(" :: stoks d ++ Mark "," :: stoks d' ++ [Mark ")"].
Proof. cbn [stoks map with_commas name_tok app]. now rewrite <- app_assoc. Qed.
Lemma pair_eq x y : spelled "(_, _)" [x; y] = Mark "(" :: x ++ Mark "," :: y ++ [Mark ")"].
Proof. spell. fl. reflexivity. Qed.
Lemma stoks_pair {A} (f : A -> shape) g p : (forall a, stoks (f a) = g a) -> stoks (shape_pair f p) = tokens_pair g p.
Proof.
  intros H. destruct p as [a n]. pose proof (stoks_net f g n H) as Hn. pose proof (H a) as Ha. unfold shape_pair, tokens_pair. cbn [fst snd].
  rewrite pair_eq, stoks_pair2, Ha, Hn. reflexivity.
Qed.
Lemma stoks_int_error e : stoks (shape_int_error e) = tokens_int_error e.
Proof. destruct e; unfold shape_int_error, tokens_int_error; st; spell; reflexivity. Qed.
Lemma stoks_addr_error (U : Unicode) e : addr_error_fine e -> stoks (shape_addr_error e) = tokens_addr_error e.
Proof.
  destruct e; cbn [addr_error_fine shape_addr_error tokens_addr_error]; intros H; unfold number; cbn [stoks map with_commas];
    rewrite ?stoks_int_error; rewrite ?tokens_text by exact H; st; spell; fl; reflexivity.
Qed.
Lemma stoks_many {X} (f : X -> shape) g l : (forall x, stoks (f x) = g x) -> map stoks (map f l) = map g l.
Proof. intros H. rewrite map_map. now apply map_ext. Qed.
Definition plain_word (t : token) : Prop := match t with Word (c :: _) => Ascii.eqb c "_" = false | _ => False end.
Lemma fill_plain w ts xs : plain_word w -> fill_tokens (w :: ts) xs = w :: fill_tokens ts xs.
Proof.
  destruct w as [|[|c s]| |]; try (intros []; fail). cbn [plain_word fill_tokens]. intros H.
  destruct c as [[] [] [] [] [] [] [] []]; try reflexivity; discriminate H.
Qed.
Lemma tuple1 name pattern w d x : tokens (lit pattern) = [w; Mark "("; Word (lit "_"); Mark ")"] -> plain_word w -> name_tok (lit name) = [w] ->
  stoks d = x -> stoks (Tuple (lit name) [d]) = spelled pattern [x].
Proof.
  intros H1 H2 H3 <-. cbn [stoks]. rewrite H3. unfold spelled. rewrite H1, fill_plain by exact H2. reflexivity.
Qed.
Lemma tuple2 name pattern w d x d' x' : tokens (lit pattern) = [w; Mark "("; Word (lit "_"); Mark ","; Word (lit "_"); Mark ")"] -> plain_word w ->
  name_tok (lit name) = [w] -> stoks d = x -> stoks d' = x' -> stoks (Tuple (lit name) [d; d']) = spelled pattern [x; x'].
Proof.
  intros H1 H2 H3 <- <-. cbn [stoks]. rewrite H3. unfold spelled. rewrite H1, fill_plain by exact H2. cbn [map with_commas app]. rewrite <- app_assoc. reflexivity.
Qed.
Lemma tuple_many name pattern w {X} (f : X -> shape) g l : tokens (lit pattern) = [w; Mark "("; Mark "["; Word (lit "_"); Mark "]"; Mark ")"] -> plain_word w ->
  name_tok (lit name) = [w] -> (forall x, stoks (f x) = g x) -> stoks (Tuple (lit name) [Many (map f l)]) = spelled pattern [with_commas (map g l)].
Proof.
  intros H1 H2 H3 H. cbn [stoks map with_commas]. rewrite H3. rewrite (stoks_many f g l H). unfold spelled. rewrite H1, fill_plain by exact H2. cbn [app]. rewrite <- app_assoc. reflexivity.
Qed.
Ltac vmr := vm_compute; reflexivity.
Ltac by1 lem := eapply lem; [vmr|reflexivity|vmr|..].
Lemma stoks_of (U : Unicode) d : datum_fine d -> stoks (shape_of d) = tokens_of d.
Proof.
  destruct d as [a|a|n|n|[a|a]|[a n|a n]|[| |l|l]|[p|m|m]|c|e|e|[s|e|e|e|g m]]; cbn [shape_of datum_fine shape_parsed shape_spec shape_specs shape_subnet shape_netspec_error tokens_of]; intros H.
  - apply stoks_v4.
  - apply stoks_v6.
  - apply stoks_net, stoks_v4.
  - apply stoks_net, stoks_v6.
  - by1 tuple1. apply stoks_v4.
  - by1 tuple1. apply stoks_v6.
  - by1 tuple2; [apply stoks_v4|apply stoks_net, stoks_v4].
  - by1 tuple2; [apply stoks_v6|apply stoks_net, stoks_v6].
  - vmr.
  - vmr.
  - by1 @tuple_many. intros x. apply stoks_pair, stoks_v4.
  - by1 @tuple_many. intros x. apply stoks_pair, stoks_v6.
  - by1 tuple1. apply tokens_int.
  - by1 tuple1. apply stoks_v4.
  - by1 tuple1. apply stoks_v6.
  - destruct c; vmr.
  - apply stoks_int_error.
  - now apply stoks_addr_error.
  - by1 tuple1. now apply tokens_text.
  - by1 tuple1. now apply stoks_addr_error.
  - by1 tuple1. now apply stoks_addr_error.
  - by1 tuple1. apply stoks_int_error.
  - by1 tuple2; apply tokens_int.
Qed.

Lemma c97_spelled : forall (U : Unicode) (d : datum),
  datum_fine d ->
  tokens (debug_text false d) = tokens_of d /\ untrailed (tokens (debug_text true d)) = tokens_of d.
Proof.
  intros U d H. pose proof (fine_of U d H) as Hf. unfold debug_text. split.
  - rewrite <- (app_nil_r (compact _)), (compact_lexes _ Hf [] I), tokens_nil, app_nil_r. now apply stoks_of.
  - rewrite pretty_tokens by exact Hf. now apply stoks_of.
Qed.

Lemma c97_layout : forall (U : Unicode) (d : datum),
  datum_fine d ->
  let ls := pieces "010" (debug_text true d) in
  tidy (debug_text false d) /\ Forall tidy ls /\ aligned 0 ls /\ Forall comma_ends ls /\ one_line ls = debug_text false d.
Proof.
  intros U d H. pose proof (fine_of U d H) as Hf. cbv zeta. unfold debug_text. rewrite pretty_pieces by exact Hf.
  assert (C0 : preok [] []) by (left; auto). assert (C1 : sufok [] []) by (left; auto).
  repeat apply conj.
  - now apply compact_tidy.
  - apply plines_tidy; [exact Hf|tlit|tlit].
  - apply (al_aligned _ _ (pretty_is _ Hf)). now apply (pld_al _ Hf 0 [] [] [] []).
  - pose proof (pld_commas _ Hf 0 [] [] [] [] C0 C1) as Hc. pose proof (pretty_is _ Hf) as Hl.
    induction Hl as [|l x ls xs [_ H1] _ IH]; [constructor|]. inversion Hc; subst. constructor; [|auto].
    unfold comma_ends. specialize (H1 [] I). rewrite tokens_nil, !app_nil_r in H1. rewrite H1. assumption.
  - unfold one_line. rewrite <- (map_indent_0 (plines [] [] _)). rewrite (flat_one _ Hf 0 [] []) by exact C0. cbn [app gap last_is rev]. now rewrite app_nil_r.
Qed.

Lemma c97_messages : forall (U : Unicode) (i : int_error) (e : addr_error),
  int_error_debug i = debug_text false (DIntError i) /\ addr_error_debug e = debug_text false (DAddrError e).
Proof.
  intros U i e. assert (A : forall i, int_error_debug i = compact (shape_int_error i)) by (intros []; reflexivity).
  split; [apply A|]. unfold debug_text. destruct e; cbn [addr_error_debug shape_of shape_addr_error compact map join shape_int]; rewrite ?A; unfold fmt_usize;
    rewrite <- ?app_assoc; reflexivity.
Qed.

(** ** Tokens tell values apart *)
Opaque tokens.
Definition apart {T W : Type} (feed : T -> list W) : Prop := forall a b r r', feed a ++ r = feed b ++ r' -> a = b /\ r = r'.
Lemma cons_tail {X} (x y : X) l l' : x :: l = y :: l' -> l = l'.
Proof. congruence. Qed.
Ltac fl_in E := repeat (progress (cbn [app] in E; rewrite <- ?app_assoc in E)).
Lemma v4_eq a : tokens_v4 a = [Word (lit "Ipv4Address"); Mark "{"; Word (lit "addr_value"); Mark ":"; Number (addr_value a); Mark "}"].
Proof. unfold tokens_v4, number. spell. reflexivity. Qed.
Lemma v6_eq a : tokens_v6 a = [Word (lit "Ipv6Address"); Mark "{"; Word (lit "top_half"); Mark ":"; Number (top_half a); Mark ",";
  Word (lit "bottom_half"); Mark ":"; Number (bottom_half a); Mark "}"].
Proof. unfold tokens_v6, number. spell. reflexivity. Qed.
Definition opt_tokens (o : option N) : list token :=
  match o with Some p => [Word (lit "Some"); Mark "("; Number p; Mark ")"] | None => [Word (lit "None")] end.
Lemma net_eq {A} (f : A -> list token) n r : tokens_net f n ++ r =
  Word (lit "IpNetwork") :: Mark "{" :: Word (lit "base_addr") :: Mark ":" :: f (base_addr n) ++ Mark "," :: Word (lit "subnet_mask") :: Mark ":" ::
  f (subnet_mask n) ++ Mark "," :: Word (lit "cidr_prefix") :: Mark ":" :: opt_tokens (cidr_prefix n) ++ Mark "}" :: r.
Proof. unfold tokens_net, number. destruct (cidr_prefix n); spell; fl; reflexivity. Qed.
Lemma pair_tokens {A} (f : A -> list token) p r : tokens_pair f p ++ r = Mark "(" :: f (fst p) ++ Mark "," :: tokens_net f (snd p) ++ Mark ")" :: r.
Proof. unfold tokens_pair. rewrite pair_eq. cbn [app]. rewrite <- app_assoc. cbn [app]. rewrite <- app_assoc. reflexivity. Qed.
Lemma apart_v4 : apart tokens_v4.
Proof. intros [a] [b] r r' E. rewrite !v4_eq in E. cbn [app addr_value] in E. injection E as <- <-. auto. Qed.
Lemma apart_v6 : apart tokens_v6.
Proof. intros [a a'] [b b'] r r' E. rewrite !v6_eq in E. cbn [app top_half bottom_half] in E. injection E as <- <- <-. auto. Qed.
Lemma apart_opt : apart opt_tokens.
Proof.
  intros [p|] [q|] r r' E; cbn [opt_tokens app] in E; try discriminate E; injection E; intros; subst; auto.
Qed.
Lemma apart_net {A} (f : A -> list token) : apart f -> apart (tokens_net f).
Proof.
  intros H [b m p] [b' m' p'] r r' E. rewrite !net_eq in E. cbn [base_addr subnet_mask cidr_prefix] in E. do 4 apply cons_tail in E.
  apply H in E. destruct E as [<- E]. do 3 apply cons_tail in E. apply H in E. destruct E as [<- E]. do 3 apply cons_tail in E.
  apply apart_opt in E. destruct E as [<- E]. apply cons_tail in E. auto.
Qed.
Lemma apart_pair {A} (f : A -> list token) : apart f -> apart (tokens_pair f).
Proof.
  intros H [a n] [b m] r r' E. rewrite !pair_tokens in E. cbn [fst snd] in E. apply cons_tail in E. apply H in E. destruct E as [<- E].
  apply cons_tail in E. apply (apart_net f H) in E. destruct E as [<- E]. apply cons_tail in E. auto.
Qed.
Lemma apart_commas {X} (f : X -> list token) : apart f -> (forall x r, exists t, f x ++ r = Mark "(" :: t) ->
  forall l l' r r', with_commas (map f l) ++ Mark "]" :: r = with_commas (map f l') ++ Mark "]" :: r' -> l = l' /\ r = r'.
Proof.
  intros H K. induction l as [|x l IH]; intros [|y l'] r r' E.
  - cbn [map with_commas app] in E. apply cons_tail in E. auto.
  - exfalso. cbn [map with_commas app] in E. destruct l' as [|z l']; cbn [map] in E; [|rewrite <- app_assoc in E].
    + destruct (K y (Mark "]" :: r')) as [t Ht]. rewrite Ht in E. discriminate E.
    + match type of E with _ = f y ++ ?s => destruct (K y s) as [t Ht] end. rewrite Ht in E. discriminate E.
  - exfalso. cbn [map with_commas app] in E. destruct l as [|z l]; cbn [map] in E; [|rewrite <- app_assoc in E].
    + destruct (K x (Mark "]" :: r)) as [t Ht]. rewrite Ht in E. discriminate E.
    + match type of E with f x ++ ?s = _ => destruct (K x s) as [t Ht] end. rewrite Ht in E. discriminate E.
  - destruct l as [|z l], l' as [|z' l']; cbn [map with_commas] in E; rewrite <- ?app_assoc in E; apply H in E; destruct E as [<- E].
    + apply cons_tail in E. subst. auto.
    + discriminate E.
    + discriminate E.
    + cbn [app] in E. apply cons_tail in E. destruct (IH (z' :: l') r r' E) as [-> ->]. auto.
Qed.
Lemma pair_opens {A} (f : A -> list token) p r : exists t, tokens_pair f p ++ r = Mark "(" :: t.
Proof. rewrite pair_tokens. eauto. Qed.

(** The tokens as lists. *)
Lemma spelled1 pattern w x : tokens (lit pattern) = [w; Mark "("; Word (lit "_"); Mark ")"] -> plain_word w ->
  spelled pattern [x] = w :: Mark "(" :: x ++ [Mark ")"].
Proof. intros H1 H2. unfold spelled. rewrite H1, fill_plain by exact H2. reflexivity. Qed.
Lemma spelled2 pattern w x y : tokens (lit pattern) = [w; Mark "("; Word (lit "_"); Mark ","; Word (lit "_"); Mark ")"] -> plain_word w ->
  spelled pattern [x; y] = w :: Mark "(" :: x ++ Mark "," :: y ++ [Mark ")"].
Proof. intros H1 H2. unfold spelled. rewrite H1, fill_plain by exact H2. reflexivity. Qed.
Lemma spelled_many pattern w x : tokens (lit pattern) = [w; Mark "("; Mark "["; Word (lit "_"); Mark "]"; Mark ")"] -> plain_word w ->
  spelled pattern [x] = w :: Mark "(" :: Mark "[" :: x ++ [Mark "]"; Mark ")"].
Proof. intros H1 H2. unfold spelled. rewrite H1, fill_plain by exact H2. reflexivity. Qed.
Definition int_word (e : int_error) : str := lit match e with IE_Empty => "Empty" | IE_InvalidDigit => "InvalidDigit" | IE_PosOverflow => "PosOverflow" end.
Definition int_list (e : int_error) : list token := [Word (lit "ParseIntError"); Mark "{"; Word (lit "kind"); Mark ":"; Word (int_word e); Mark "}"].
Definition addr_list (e : addr_error) : list token :=
  match e with
  | UnknownAddressType => [Word (lit "UnknownAddressType")]
  | IncorrectChunkCount got expected => [Word (lit "IncorrectChunkCount"); Mark "("; Number (N.of_nat got); Mark ","; Number (N.of_nat expected); Mark ")"]
  | EmptyChunk i => [Word (lit "EmptyChunk"); Mark "("; Number (N.of_nat i); Mark ")"]
  | ChunkParseError i chunk why => [Word (lit "ChunkParseError"); Mark "("; Number (N.of_nat i); Mark ","; Text chunk; Mark ","] ++ int_list why ++ [Mark ")"]
  | ChunkOutOfRange i got min max => [Word (lit "ChunkOutOfRange"); Mark "("; Number (N.of_nat i); Mark ","; Number got; Mark ","; Number min; Mark ","; Number max; Mark ")"]
  | TooManyShorteningElements got most => [Word (lit "TooManyShorteningElements"); Mark "("; Number (N.of_nat got); Mark ","; Number (N.of_nat most); Mark ")"]
  end.
Lemma int_list_eq e : tokens_int_error e = int_list e.
Proof. destruct e; vmr. Qed.
Lemma addr_list_eq e : tokens_addr_error e = addr_list e.
Proof.
  destruct e; unfold tokens_addr_error, number; rewrite ?int_list_eq; spell; reflexivity.
Qed.
Definition color_word (c : color) : str :=
  lit match c with
  | Black => "Black" | DarkBlue => "DarkBlue" | DarkGreen => "DarkGreen" | DarkCyan => "DarkCyan" | DarkRed => "DarkRed"
  | DarkMagenta => "DarkMagenta" | DarkYellow => "DarkYellow" | Gray => "Gray" | DarkGray => "DarkGray" | Blue => "Blue"
  | Green => "Green" | Cyan => "Cyan" | Red => "Red" | Magenta => "Magenta" | Yellow => "Yellow" | White => "White"
  end.
Definition list_of (d : datum) : list token :=
  match d with
  | D4 a => tokens_v4 a
  | D6 a => tokens_v6 a
  | DNet4 n => tokens_net tokens_v4 n
  | DNet6 n => tokens_net tokens_v6 n
  | DParsed (PAddr4 a) => Word (lit "Ipv4") :: Mark "(" :: tokens_v4 a ++ [Mark ")"]
  | DParsed (PAddr6 a) => Word (lit "Ipv6") :: Mark "(" :: tokens_v6 a ++ [Mark ")"]
  | DSpec (Spec4 a n) => Word (lit "Ipv4") :: Mark "(" :: tokens_v4 a ++ Mark "," :: tokens_net tokens_v4 n ++ [Mark ")"]
  | DSpec (Spec6 a n) => Word (lit "Ipv6") :: Mark "(" :: tokens_v6 a ++ Mark "," :: tokens_net tokens_v6 n ++ [Mark ")"]
  | DSpecs SpecsNothing => [Word (lit "Nothing")]
  | DSpecs SpecsMixed => [Word (lit "MixedSpecs")]
  | DSpecs (Specs4 l) => Word (lit "Ipv4") :: Mark "(" :: Mark "[" :: with_commas (map (tokens_pair tokens_v4) l) ++ [Mark "]"; Mark ")"]
  | DSpecs (Specs6 l) => Word (lit "Ipv6") :: Mark "(" :: Mark "[" :: with_commas (map (tokens_pair tokens_v6) l) ++ [Mark "]"; Mark ")"]
  | DSubnet (PSCidr p) => [Word (lit "Cidr"); Mark "("; Number p; Mark ")"]
  | DSubnet (PSMask4 m) => Word (lit "Ipv4Mask") :: Mark "(" :: tokens_v4 m ++ [Mark ")"]
  | DSubnet (PSMask6 m) => Word (lit "Ipv6Mask") :: Mark "(" :: tokens_v6 m ++ [Mark ")"]
  | DColor c => [Word (color_word c)]
  | DIntError e => int_list e
  | DAddrError e => addr_list e
  | DNetspecError (Unrecognized s) => [Word (lit "Unrecognized"); Mark "("; Text s; Mark ")"]
  | DNetspecError (AddressError e) => Word (lit "Address") :: Mark "(" :: addr_list e ++ [Mark ")"]
  | DNetspecError (MaskError e) => Word (lit "Mask") :: Mark "(" :: addr_list e ++ [Mark ")"]
  | DNetspecError (CidrParseError e) => Word (lit "CidrParse") :: Mark "(" :: int_list e ++ [Mark ")"]
  | DNetspecError (CidrRange got max) => [Word (lit "CidrRange"); Mark "("; Number got; Mark ","; Number max; Mark ")"]
  end.
Lemma list_of_eq d : tokens_of d = list_of d.
Proof.
  destruct d as [a|a|n|n|[a|a]|[a n|a n]|[| |l|l]|[p|m|m]|c|e|e|[s|e|e|e|g m]]; cbn [tokens_of list_of]; rewrite ?int_list_eq, ?addr_list_eq; try reflexivity.
  all: try (eapply spelled1; [vmr|reflexivity]).
  all: try (eapply spelled2; [vmr|reflexivity]).
  all: try (eapply spelled_many; [vmr|reflexivity]).
  destruct c; vmr.
Qed.
Lemma int_list_inj e e' : int_list e = int_list e' -> e = e'.
Proof. destruct e, e'; intros E; try reflexivity; discriminate E. Qed.
Lemma addr_list_inj e e' r r' : addr_list e ++ Mark ")" :: r = addr_list e' ++ Mark ")" :: r' -> e = e'.
Proof.
  destruct e, e'; intros E; try discriminate E; cbn [addr_list app] in E; try reflexivity;
    try (injection E; intros; repeat match goal with H : N.of_nat _ = N.of_nat _ |- _ => apply of_nat_eq in H end; subst; reflexivity).
  unfold int_list in E. cbn [app] in E. injection E as Hi Hc Hw _. apply of_nat_eq in Hi. subst. f_equal.
  match goal with |- ?x = ?y => destruct x, y end; try reflexivity; discriminate Hw.
Qed.
Lemma apart0 {T W} (f : T -> list W) a b : apart f -> f a = f b -> a = b.
Proof. intros H E. apply (H a b [] []). now rewrite E. Qed.
Definition addr_head (e : addr_error) : string :=
  match e with
  | UnknownAddressType => "UnknownAddressType" | IncorrectChunkCount _ _ => "IncorrectChunkCount" | EmptyChunk _ => "EmptyChunk"
  | ChunkParseError _ _ _ => "ChunkParseError" | ChunkOutOfRange _ _ _ _ => "ChunkOutOfRange" | TooManyShorteningElements _ _ => "TooManyShorteningElements"
  end.
Definition head_word (d : datum) : str :=
  match d with
  | D4 _ => lit "Ipv4Address"
  | D6 _ => lit "Ipv6Address"
  | DNet4 _ | DNet6 _ => lit "IpNetwork"
  | DParsed (PAddr4 _) | DSpec (Spec4 _ _) | DSpecs (Specs4 _) => lit "Ipv4"
  | DParsed (PAddr6 _) | DSpec (Spec6 _ _) | DSpecs (Specs6 _) => lit "Ipv6"
  | DSpecs SpecsNothing => lit "Nothing"
  | DSpecs SpecsMixed => lit "MixedSpecs"
  | DSubnet (PSCidr _) => lit "Cidr"
  | DSubnet (PSMask4 _) => lit "Ipv4Mask"
  | DSubnet (PSMask6 _) => lit "Ipv6Mask"
  | DColor c => color_word c
  | DIntError _ => lit "ParseIntError"
  | DAddrError e => lit (addr_head e)
  | DNetspecError (Unrecognized _) => lit "Unrecognized"
  | DNetspecError (AddressError _) => lit "Address"
  | DNetspecError (MaskError _) => lit "Mask"
  | DNetspecError (CidrParseError _) => lit "CidrParse"
  | DNetspecError (CidrRange _ _) => lit "CidrRange"
  end.
Lemma list_head d : exists t, list_of d = Word (head_word d) :: t.
Proof.
  destruct d as [a|a|n|n|[a|a]|[a n|a n]|[| |l|l]|[p|m|m]|c|e|e|[s|e|e|e|g m]]; cbn [list_of head_word].
  1: rewrite v4_eq; eexists; reflexivity.
  1: rewrite v6_eq; eexists; reflexivity.
  1, 2: rewrite <- (app_nil_r (tokens_net _ _)), net_eq; eexists; reflexivity.
  14: destruct e; eexists; reflexivity.
  all: eexists; reflexivity.
Qed.
Lemma color_inj c c' : color_word c = color_word c' -> c = c'.
Proof. destruct c, c'; intros E; try reflexivity; discriminate E. Qed.
Lemma many_inj {A} (f : A -> list token) l l' r r' : apart f ->
  with_commas (map (tokens_pair f) l) ++ Mark "]" :: r = with_commas (map (tokens_pair f) l') ++ Mark "]" :: r' -> l = l'.
Proof. intros H E. apply apart_commas in E; [apply E|now apply apart_pair|intros; apply pair_opens]. Qed.
Lemma v4_start a r : exists t, tokens_v4 a ++ r = Word (lit "Ipv4Address") :: t.
Proof. rewrite v4_eq. eexists. reflexivity. Qed.
Lemma v6_start a r : exists t, tokens_v6 a ++ r = Word (lit "Ipv6Address") :: t.
Proof. rewrite v6_eq. eexists. reflexivity. Qed.
Lemma nets_differ n n' : tokens_net tokens_v4 n <> tokens_net tokens_v6 n'.
Proof.
  intros E. rewrite <- (app_nil_r (tokens_net _ n)), <- (app_nil_r (tokens_net _ n')), !net_eq in E. do 4 apply cons_tail in E.
  rewrite v4_eq, v6_eq in E. discriminate E.
Qed.
Ltac other d' Eh := destruct d' as [b|b|n'|n'|[b|b]|[b n'|b n']|[| |l'|l']|[q|m'|m']|c'|e'|e'|[s'|e'|e'|e'|g' m']]; cbn [head_word] in Eh;
  try discriminate Eh; try (destruct c'; discriminate Eh); try (destruct e'; discriminate Eh).
Ltac start4 := match goal with E : context [tokens_v4 ?a ++ ?r] |- _ => let t := fresh "t" in let K := fresh "K" in destruct (v4_start a r) as [t K]; rewrite K in E; discriminate E end.
Ltac start6 := match goal with E : context [tokens_v6 ?a ++ ?r] |- _ => let t := fresh "t" in let K := fresh "K" in destruct (v6_start a r) as [t K]; rewrite K in E; discriminate E end.
Lemma list_of_inj d d' : list_of d = list_of d' -> d = d'.
Proof.
  intros E. assert (Eh : head_word d = head_word d').
  { destruct (list_head d) as [t Ht], (list_head d') as [t' Ht']. rewrite Ht, Ht' in E. now injection E. }
  destruct d as [a|a|n|n|[a|a]|[a n|a n]|[| |l|l]|[p|m|m]|c|e|e|[s|e|e|e|g m]]; cbn [head_word] in Eh.
  - other d' Eh. cbn [list_of] in E. apply (apart0 _ _ _ apart_v4) in E. now subst.
  - other d' Eh. cbn [list_of] in E. apply (apart0 _ _ _ apart_v6) in E. now subst.
  - other d' Eh; cbn [list_of] in E.
    + apply (apart0 _ _ _ (apart_net _ apart_v4)) in E. now subst.
    + now apply nets_differ in E.
  - other d' Eh; cbn [list_of] in E.
    + symmetry in E. now apply nets_differ in E.
    + apply (apart0 _ _ _ (apart_net _ apart_v6)) in E. now subst.
  - other d' Eh; cbn [list_of] in E; do 2 apply cons_tail in E.
    + apply apart_v4 in E. destruct E as [-> _]. reflexivity.
    + apply apart_v4 in E. destruct E as [_ E]. discriminate E.
    + start4.
  - other d' Eh; cbn [list_of] in E; do 2 apply cons_tail in E.
    + apply apart_v6 in E. destruct E as [-> _]. reflexivity.
    + apply apart_v6 in E. destruct E as [_ E]. discriminate E.
    + start6.
  - other d' Eh; cbn [list_of] in E; do 2 apply cons_tail in E.
    + apply apart_v4 in E. destruct E as [_ E]. discriminate E.
    + apply apart_v4 in E. destruct E as [-> E]. apply cons_tail in E. apply (apart_net _ apart_v4) in E. destruct E as [-> _]. reflexivity.
    + start4.
  - other d' Eh; cbn [list_of] in E; do 2 apply cons_tail in E.
    + apply apart_v6 in E. destruct E as [_ E]. discriminate E.
    + apply apart_v6 in E. destruct E as [-> E]. apply cons_tail in E. apply (apart_net _ apart_v6) in E. destruct E as [-> _]. reflexivity.
    + start6.
  - other d' Eh. reflexivity.
  - other d' Eh. reflexivity.
  - other d' Eh; cbn [list_of] in E; do 2 apply cons_tail in E.
    + start4.
    + start4.
    + apply cons_tail in E. apply many_inj in E; [now subst|exact apart_v4].
  - other d' Eh; cbn [list_of] in E; do 2 apply cons_tail in E.
    + start6.
    + start6.
    + apply cons_tail in E. apply many_inj in E; [now subst|exact apart_v6].
  - other d' Eh. cbn [list_of] in E. injection E as ->. reflexivity.
  - other d' Eh. cbn [list_of] in E. do 2 apply cons_tail in E. apply apart_v4 in E. destruct E as [-> _]. reflexivity.
  - other d' Eh. cbn [list_of] in E. do 2 apply cons_tail in E. apply apart_v6 in E. destruct E as [-> _]. reflexivity.
  - clear E. destruct c; other d' Eh; apply (color_inj) in Eh; now subst.
  - other d' Eh. cbn [list_of] in E. apply int_list_inj in E. now subst.
  - assert (K : forall e', list_of (DAddrError e) = list_of (DAddrError e') -> e = e').
    { intros e' K. cbn [list_of] in K. apply (addr_list_inj e e' [] []). now rewrite K. }
    destruct d' as [b|b|n'|n'|[b|b]|[b n'|b n']|[| |l'|l']|[q|m'|m']|c'|e'|e'|[s'|e'|e'|e'|g' m']]; try (f_equal; apply K; exact E);
      clear E K; cbn [head_word] in Eh; destruct e; try discriminate Eh; destruct c'; discriminate Eh.
  - other d' Eh. cbn [list_of] in E. injection E as ->. reflexivity.
  - other d' Eh. cbn [list_of] in E. do 2 apply cons_tail in E. apply addr_list_inj in E. now subst.
  - other d' Eh. cbn [list_of] in E. do 2 apply cons_tail in E. apply addr_list_inj in E. now subst.
  - other d' Eh. cbn [list_of] in E. do 2 apply cons_tail in E.
    assert (K : int_list e = int_list e') by (now apply app_inv_tail in E). apply int_list_inj in K. now subst.
  - other d' Eh. cbn [list_of] in E. injection E as -> ->. reflexivity.
Qed.

Definition stays (ts : list token) : Prop := first_closer ts = false /\ forall r, untrailed (ts ++ r) = ts ++ untrailed r.
Lemma stays_commas tss : Forall stays tss -> forall r, untrailed (with_commas tss ++ r) = with_commas tss ++ untrailed r.
Proof.
  induction 1 as [|ts tss [H1 H2] H3 IH]; intros r; [reflexivity|]. cbn [with_commas]. destruct tss as [|ts' tss]; [apply H2|].
  rewrite <- app_assoc, H2, <- app_assoc. f_equal. cbn [app]. rewrite untrailed_comma, <- IH.
  inversion H3 as [|? ? [H4 _] _]; subst. cbn [with_commas]. destruct ts' as [|t ts']; [discriminate H4|]. cbn [first_closer] in H4.
  destruct tss; cbn [app]; now rewrite H4.
Qed.
Lemma word_stay w r : untrailed (word w :: r) = word w :: untrailed r.
Proof. apply untrailed_cons. unfold word. now destruct (numeral 10 w). Qed.
Lemma stoks_stay d : fine d -> stays (stoks d).
Proof.
  induction d as [s|name fs IH|name ds IH|ds IH] using shape_ind2; cbn [fine stoks]; intros Hf.
  - destruct (sound_tokens s Hf) as (t & Ht & ->). split; [now destruct t|]. intros r. cbn [app]. apply untrailed_cons. now destruct t.
  - destruct Hf as (Hn & _ & Hf). rewrite all_Forall in Hf. split; [apply word_calm|]. intros r. cbn [app]. rewrite word_stay, untrailed_cons by reflexivity.
    do 2 f_equal. rewrite <- !app_assoc. rewrite stays_commas; [f_equal; cbn [app]; now apply untrailed_cons|].
    apply Forall_map. rewrite Forall_forall in *. intros f Hin. destruct (Hf f Hin) as [_ Hd]. destruct (IH f Hin Hd) as [_ H]. split; [apply word_calm|].
    intros r'. cbn [app]. rewrite word_stay, untrailed_cons by reflexivity. now rewrite H.
  - destruct Hf as (Hn & _ & Hf). rewrite all_Forall in Hf. split; [destruct name; [reflexivity|apply word_calm]|]. intros r. rewrite <- app_assoc.
    rewrite untrailed_calm by apply name_no. rewrite <- app_assoc. f_equal. cbn [app]. rewrite untrailed_cons by reflexivity. f_equal.
    rewrite <- !app_assoc. rewrite stays_commas; [f_equal; cbn [app]; now apply untrailed_cons|].
    apply Forall_map. rewrite Forall_forall in *. auto.
  - rewrite all_Forall in Hf. split; [reflexivity|]. intros r. cbn [app]. rewrite untrailed_cons by reflexivity. f_equal.
    rewrite <- !app_assoc. rewrite stays_commas; [f_equal; cbn [app]; now apply untrailed_cons|].
    apply Forall_map. rewrite Forall_forall in *. auto.
Qed.
Lemma tokens_of_stay (U : Unicode) d : datum_fine d -> untrailed (tokens_of d) = tokens_of d.
Proof.
  intros H. rewrite <- (stoks_of U d H). destruct (stoks_stay _ (fine_of U d H)) as [_ K]. specialize (K []). cbn [untrailed] in K. now rewrite !app_nil_r in K.
Qed.
Lemma text_tokens (U : Unicode) f d : datum_fine d -> untrailed (tokens (debug_text f d)) = tokens_of d.
Proof.
  intros H. destruct (c97_spelled U d H) as [H1 H2]. destruct f; [exact H2|]. rewrite H1. now apply (tokens_of_stay U).
Qed.

Lemma c97_apart : forall (U U' : Unicode) (f f' : bool) (d d' : datum),
  datum_fine d -> datum_fine d' -> @debug_text U f d = @debug_text U' f' d' -> d = d'.
Proof.
  intros U U' f f' d d' H H' E. apply list_of_inj. rewrite <- !list_of_eq.
  rewrite <- (text_tokens U f d H), <- (text_tokens U' f' d' H'). now rewrite E.
Qed.
