(** * Utf8Facts: text, its escaped form, and string literals *)
From Verif Require Import RustBase Console Messages Process Spec SpecText SpecShow SpecMain SpecProcess TextFacts.
From Coq Require Import ZifyBool ZifyNat ZifyN.
Ltac Zify.zify_post_hook ::= Z.div_mod_to_equations.

Lemma code_bound c : code c < 256.
Proof. apply N_ascii_bounded. Qed.
Lemma code_ascii n : n < 256 -> code (ascii_of_N n) = n.
Proof. apply N_ascii_embedding. Qed.
Lemma ascii_code n c : n = code c -> ascii_of_N n = c.
Proof. intros ->. apply ascii_N_embedding. Qed.
Lemma code_inj c d : code c = code d -> c = d.
Proof. intros E. rewrite <- (ascii_N_embedding c), <- (ascii_N_embedding d). now f_equal. Qed.

Ltac bytes := repeat match goal with
  | H : context [code (ascii_of_N ?n)] |- _ => rewrite (code_ascii n) in H by lia
  | |- context [code (ascii_of_N ?n)] => rewrite (code_ascii n) by lia
  end.
Ltac ranges := unfold utf8_2, utf8_3, utf8_4, cont, Messages.between in *.

(** ** Encoding *)
Lemma utf8_one n : n < 0x80 -> utf8 n = [ascii_of_N n].
Proof. intros H. unfold utf8. now rewrite (proj2 (N.ltb_lt n 0x80) H). Qed.
Lemma utf8_two n : 0x80 <= n < 0x800 ->
  exists a b, utf8 n = [a; b] /\ utf8_2 a b = true /\ code_2 a b = n /\ 0x80 <= code a /\ 0x80 <= code b.
Proof.
  intros H. unfold utf8. replace (n <? 0x80) with false by lia. replace (n <? 0x800) with true by lia. cbn [map].
  eexists _, _. split; [reflexivity|]. ranges. unfold code_2. bytes. repeat split; lia.
Qed.
Lemma utf8_three n : 0x800 <= n < 0x10000 -> scalar n ->
  exists a b c, utf8 n = [a; b; c] /\ utf8_2 a b = false /\ utf8_3 a b c = true /\ code_3 a b c = n /\
    0x80 <= code a /\ 0x80 <= code b /\ 0x80 <= code c.
Proof.
  intros H S. unfold utf8. replace (n <? 0x80) with false by lia. replace (n <? 0x800) with false by lia.
  replace (n <? 0x10000) with true by lia. cbn [map].
  eexists _, _, _. split; [reflexivity|]. ranges. unfold code_3, scalar in *. bytes. repeat split; lia.
Qed.
Lemma utf8_four n : 0x10000 <= n -> scalar n ->
  exists a b c d, utf8 n = [a; b; c; d] /\ utf8_2 a b = false /\ utf8_3 a b c = false /\ utf8_4 a b c d = true /\
    code_4 a b c d = n /\ 0x80 <= code a /\ 0x80 <= code b /\ 0x80 <= code c /\ 0x80 <= code d.
Proof.
  intros H S. unfold utf8. replace (n <? 0x80) with false by lia. replace (n <? 0x800) with false by lia.
  replace (n <? 0x10000) with false by lia. cbn [map].
  eexists _, _, _, _. split; [reflexivity|]. ranges. unfold code_4, scalar in *. bytes. repeat split; lia.
Qed.

Lemma utf8_2_code a b : utf8_2 a b = true -> utf8 (code_2 a b) = [a; b] /\ scalar (code_2 a b).
Proof.
  intros H. ranges. unfold code_2, scalar, utf8.
  pose proof (code_bound a). pose proof (code_bound b).
  replace ((code a - 192) * 64 + (code b - 128) <? 0x80) with false by lia.
  replace ((code a - 192) * 64 + (code b - 128) <? 0x800) with true by lia.
  split; [|lia]. cbn [map]. f_equal; [|f_equal]; apply ascii_code; lia.
Qed.
Lemma utf8_3_code a b c : utf8_3 a b c = true -> utf8 (code_3 a b c) = [a; b; c] /\ scalar (code_3 a b c).
Proof.
  intros H. ranges. unfold code_3, scalar, utf8.
  pose proof (code_bound a). pose proof (code_bound b). pose proof (code_bound c).
  remember (((code a - 0xe0) * 64 + (code b - 0x80)) * 64 + (code c - 0x80)) as n eqn:En.
  replace (n <? 0x80) with false by lia. replace (n <? 0x800) with false by lia. replace (n <? 0x10000) with true by lia.
  split; [|lia]. cbn [map]. f_equal; [|f_equal; [|f_equal]]; apply ascii_code; lia.
Qed.
Lemma utf8_4_code a b c d : utf8_4 a b c d = true -> utf8 (code_4 a b c d) = [a; b; c; d] /\ scalar (code_4 a b c d).
Proof.
  intros H. ranges. unfold code_4, scalar, utf8.
  pose proof (code_bound a). pose proof (code_bound b). pose proof (code_bound c). pose proof (code_bound d).
  remember ((((code a - 0xf0) * 64 + (code b - 0x80)) * 64 + (code c - 0x80)) * 64 + (code d - 0x80)) as n eqn:En.
  replace (n <? 0x80) with false by lia. replace (n <? 0x800) with false by lia. replace (n <? 0x10000) with false by lia.
  split; [|lia]. cbn [map]. f_equal; [|f_equal; [|f_equal; [|f_equal]]]; apply ascii_code; lia.
Qed.
Ltac Zify.zify_post_hook ::= idtac.

(** The forms a character takes. *)
Lemma utf8_cases n : scalar n ->
  (n < 0x80 /\ utf8 n = [ascii_of_N n] /\ code (ascii_of_N n) = n) \/
  (0x80 <= n /\ exists a b, utf8 n = [a; b] /\ (code a <? 0x80) = false /\ utf8_2 a b = true /\ code_2 a b = n /\ 0x80 <= code a /\ 0x80 <= code b) \/
  (0x80 <= n /\ exists a b c, utf8 n = [a; b; c] /\ (code a <? 0x80) = false /\ utf8_2 a b = false /\ utf8_3 a b c = true /\ code_3 a b c = n /\
    0x80 <= code a /\ 0x80 <= code b /\ 0x80 <= code c) \/
  (0x80 <= n /\ exists a b c d, utf8 n = [a; b; c; d] /\ (code a <? 0x80) = false /\ utf8_2 a b = false /\ utf8_3 a b c = false /\ utf8_4 a b c d = true /\
    code_4 a b c d = n /\ 0x80 <= code a /\ 0x80 <= code b /\ 0x80 <= code c /\ 0x80 <= code d).
Proof.
  intros S. destruct (N.lt_ge_cases n 0x80) as [H|H].
  { left. split; [exact H|]. split; [now apply utf8_one|]. apply code_ascii. lia. }
  right. destruct (N.lt_ge_cases n 0x800) as [H1|H1].
  { left. split; [exact H|]. destruct (utf8_two n) as (a & b & E & X & Y & Z & W); [lia|]. exists a, b.
    split; [exact E|]. split; [lia|]. auto. }
  right. destruct (N.lt_ge_cases n 0x10000) as [H2|H2].
  { left. split; [exact H|]. destruct (utf8_three n) as (a & b & c & E & X & Y & Z & W); [lia|exact S|]. exists a, b, c.
    split; [exact E|]. split; [lia|]. auto. }
  right. split; [exact H|]. destruct (utf8_four n) as (a & b & c & d & E & X & Y & Z & W & V); [lia|exact S|]. exists a, b, c, d.
  split; [exact E|]. split; [lia|]. repeat split; tauto.
Qed.

Lemma is_utf8_step n rest : scalar n -> is_utf8 (utf8 n ++ rest) = is_utf8 rest.
Proof.
  intros S. destruct (utf8_cases n S) as [(H & -> & E)|[(_ & a & b & -> & Ha & X & _)|[(_ & a & b & c & -> & Ha & X & Y & _)|(_ & a & b & c & d & -> & Ha & X & Y & Z & _)]]].
  - cbn [List.app is_utf8]. rewrite E, (proj2 (N.ltb_lt n 0x80) H). reflexivity.
  - cbn [List.app is_utf8]. now rewrite Ha, X.
  - cbn [List.app is_utf8]. now rewrite Ha, X, Y.
  - cbn [List.app is_utf8]. now rewrite Ha, X, Y, Z.
Qed.

Lemma unicode_nil : unicode [].
Proof. exists []. split; [constructor|reflexivity]. Qed.
Lemma unicode_app s t : unicode s -> unicode t -> unicode (s ++ t).
Proof.
  intros (ns & H & ->) (ms & H' & ->). exists (ns ++ ms). split; [now apply Forall_app|]. now rewrite flat_map_app.
Qed.
Lemma unicode_char n : scalar n -> unicode (utf8 n).
Proof. intros H. exists [n]. split; [now constructor|]. cbn [flat_map]. now rewrite app_nil_r. Qed.

Lemma utf8_unicode : forall (s : str), is_utf8 s = true <-> unicode s.
Proof.
  intros s. split.
  - assert (forall k s, (List.length s <= k)%nat -> is_utf8 s = true -> unicode s) as G; [|now apply (G (List.length s))].
    clear s. induction k as [|k IH]; intros s Hk H.
    { destruct s; [apply unicode_nil|cbn in Hk; lia]. }
    destruct s as [|a s1]; [apply unicode_nil|]. cbn [is_utf8] in H. cbn [List.length] in Hk.
    destruct (N.ltb_spec (code a) 0x80) as [Ha|Ha].
    { change (a :: s1) with ([a] ++ s1). apply unicode_app; [|apply IH; [lia|exact H]].
      replace [a] with (utf8 (code a)); [apply unicode_char; left; lia|]. rewrite utf8_one by exact Ha. f_equal. now apply ascii_code. }
    destruct s1 as [|b s2]; [discriminate|]. cbn [List.length] in Hk. destruct (utf8_2 a b) eqn:E2.
    { destruct (utf8_2_code a b E2) as [E S]. change (a :: b :: s2) with ([a; b] ++ s2). rewrite <- E.
      apply unicode_app; [now apply unicode_char|apply IH; [lia|exact H]]. }
    destruct s2 as [|c s3]; [discriminate|]. cbn [List.length] in Hk. destruct (utf8_3 a b c) eqn:E3.
    { destruct (utf8_3_code a b c E3) as [E S]. change (a :: b :: c :: s3) with ([a; b; c] ++ s3). rewrite <- E.
      apply unicode_app; [now apply unicode_char|apply IH; [lia|exact H]]. }
    destruct s3 as [|d s4]; [discriminate|]. cbn [List.length] in Hk. destruct (utf8_4 a b c d) eqn:E4; [|discriminate].
    destruct (utf8_4_code a b c d E4) as [E S]. change (a :: b :: c :: d :: s4) with ([a; b; c; d] ++ s4). rewrite <- E.
    apply unicode_app; [now apply unicode_char|apply IH; [lia|exact H]].
  - intros (ns & H & ->). induction H as [|n ns Hn H IH]; [reflexivity|]. cbn [flat_map]. now rewrite is_utf8_step.
Qed.

(** Text cut at an ASCII character. *)
Lemma utf8_bytes n c : scalar n -> In c (utf8 n) -> n < 0x80 /\ utf8 n = [c] \/ 0x80 <= code c.
Proof.
  intros S Hc. destruct (utf8_cases n S) as [(H & E & _)|[(_ & a & b & E & _ & _ & _ & H)|[(_ & a & b & x & E & _ & _ & _ & _ & H)|(_ & a & b & x & d & E & _ & _ & _ & _ & _ & H)]]];
    rewrite E in Hc; cbn [In] in Hc.
  - destruct Hc as [<-|[]]. left. auto.
  - right. destruct Hc as [<-|[<-|[]]]; tauto.
  - right. destruct Hc as [<-|[<-|[<-|[]]]]; tauto.
  - right. destruct Hc as [<-|[<-|[<-|[<-|[]]]]]; tauto.
Qed.
Lemma unicode_cut s x t : code x < 0x80 -> unicode (s ++ x :: t) -> unicode s /\ unicode t.
Proof.
  intros Hx (ns & H & E). revert s E. induction H as [|n ns Hn H IH]; intros s E; [now destruct s|]. cbn [flat_map] in E.
  apply app_eq_app in E. destruct E as (l & [(-> & E)|(E1 & E2)]).
  - destruct (IH l (eq_sym E)) as [A B]. split; [|exact B]. apply unicode_app; [now apply unicode_char|exact A].
  - destruct l as [|y l].
    + rewrite app_nil_r in E1. cbn [List.app] in E2. destruct (IH [] E2) as [A B]. split; [|exact B]. rewrite <- E1. now apply unicode_char.
    + injection E2 as <- ->. assert (In x (utf8 n)) as I by (rewrite E1; apply in_or_app; right; now left).
      destruct (utf8_bytes n x Hn I) as [(Hn' & E)|H']; [|lia]. rewrite E in E1.
      destruct s as [|z s]; cbn [List.app] in E1; [|injection E1 as _ E1; now destruct s].
      injection E1 as <-. split; [apply unicode_nil|]. exists ns. now split.
Qed.
Lemma unicode_split x s : code x < 0x80 -> unicode s -> Forall unicode (split_on x s).
Proof.
  intros Hx. assert (forall k s, (List.length s <= k)%nat -> unicode s -> Forall unicode (split_on x s)) as G; [|now apply (G (List.length s))].
  clear s. induction k as [|k IH]; intros s Hk Hs.
  { destruct s; [|cbn in Hk; lia]. repeat constructor. exact Hs. }
  destruct (in_dec ascii_dec x s) as [I|I].
  - assert (exists a b, s = a ++ x :: b /\ ~ In x a) as (a & b & -> & Na).
    { clear -I. induction s as [|c s IH]; [destruct I|]. destruct (ascii_dec c x) as [->|Hc].
      - now exists [], s.
      - destruct IH as (a & b & -> & Na); [destruct I; [congruence|assumption]|]. exists (c :: a), b. split; [reflexivity|].
        intros [E|E]; [congruence|contradiction]. }
    rewrite split_app by exact Na. destruct (unicode_cut a x b Hx Hs) as [A B]. constructor; [exact A|]. apply IH; [|exact B].
    rewrite app_length in Hk. cbn [List.length] in Hk. lia.
  - rewrite split_none by exact I. repeat constructor. exact Hs.
Qed.

(** ** ASCII *)
Definition ascii_text (s : str) : Prop := Forall (fun c => code c < 0x80) s.
Lemma ascii_unicode s : ascii_text s -> unicode s.
Proof.
  intros H. exists (map code s). split.
  - apply Forall_map. eapply Forall_impl; [|exact H]. intros c Hc. cbn beta in *. left. lia.
  - induction H as [|c s Hc H IH]; [reflexivity|]. cbn [map flat_map]. rewrite utf8_one, <- IH by exact Hc. cbn [List.app]. f_equal.
    symmetry. now apply ascii_code.
Qed.

Lemma tidy_app s t : tidy s -> tidy t -> tidy (s ++ t).
Proof. intros (ns & H & ->) (ms & H' & ->). exists (ns ++ ms). split; [now apply Forall_app|]. now rewrite flat_map_app. Qed.
Lemma tidy_ascii s : Forall printable_ascii s -> tidy s.
Proof.
  intros H. exists (map code s). split.
  - apply Forall_map. eapply Forall_impl; [|exact H]. intros c [H1 H2]. unfold code, scalar, control in *. lia.
  - induction H as [|c s Hc H IH]; [reflexivity|]. cbn [map flat_map]. rewrite utf8_one, <- IH by (destruct Hc; unfold code; lia).
    cbn [List.app]. f_equal. symmetry. now apply ascii_code.
Qed.
Lemma printable_check s : forallb (Messages.between 32 126) s = true -> Forall printable_ascii s.
Proof.
  intros H. rewrite forallb_forall in H. apply Forall_forall. intros c Hc. specialize (H c Hc). unfold Messages.between, printable_ascii, code in *. lia.
Qed.
Lemma digit_char_hex d : d < 16 -> In (digit_char d) (lit "0123456789abcdef").
Proof.
  intros H. assert (In d (map N.of_nat (seq 0 16))) as I.
  { apply in_map_iff. exists (N.to_nat d). split; [lia|]. apply in_seq. lia. }
  cbn [seq map N.of_nat] in I. cbn [In] in I. repeat (destruct I as [<-|I]; [vm_compute; tauto|]). destruct I.
Qed.
Lemma fmt_hexits r n : rdx r -> Forall (fun c => In c (lit "0123456789abcdef")) (fmt_radix r n).
Proof.
  intros Hr. eapply Forall_impl; [|apply (fmt_radix_chars r n Hr)]. intros c (d & Hd & ->). apply digit_char_hex. destruct Hr; subst; lia.
Qed.
Lemma hexit_printable c : In c (lit "0123456789abcdef") -> printable_ascii c.
Proof. intros H. cbn [lit list_ascii_of_string In] in H. unfold printable_ascii. repeat (destruct H as [<-|H]; [vm_compute; split; discriminate|]). destruct H. Qed.
Lemma fmt_printable r n : rdx r -> Forall printable_ascii (fmt_radix r n).
Proof. intros Hr. eapply Forall_impl; [exact hexit_printable|]. now apply fmt_hexits. Qed.

(** ** The escaped form *)
Section Escapes.
  Context (U : Unicode).
  Definition esc (n : N) : str := if n <? 0x80 then escape_ascii (ascii_of_N n) else escape_other n (utf8 n).

  Lemma escape_step n rest : scalar n -> escape_debug (utf8 n ++ rest) = esc n ++ escape_debug rest.
  Proof.
    intros S. unfold esc. destruct (utf8_cases n S) as [(H & E & C)|[(H & a & b & E & Ha & X & C & _)|[(H & a & b & c & E & Ha & X & Y & C & _)|(H & a & b & c & d & E & Ha & X & Y & Z & C & _)]]];
      rewrite E.
    - cbn [List.app escape_debug]. now rewrite C, (proj2 (N.ltb_lt n 0x80) H).
    - rewrite (proj2 (N.ltb_ge n 0x80) H). cbn [List.app escape_debug]. now rewrite Ha, X, C.
    - rewrite (proj2 (N.ltb_ge n 0x80) H). cbn [List.app escape_debug]. now rewrite Ha, X, Y, C.
    - rewrite (proj2 (N.ltb_ge n 0x80) H). cbn [List.app escape_debug]. now rewrite Ha, X, Y, Z, C.
  Qed.
  Lemma escape_all ns : Forall scalar ns -> escape_debug (flat_map utf8 ns) = flat_map esc ns.
  Proof. intros H. induction H as [|n ns Hn H IH]; [reflexivity|]. cbn [flat_map]. now rewrite escape_step, IH. Qed.

  Lemma escape_unicode_tidy n : tidy (escape_unicode n).
  Proof.
    apply tidy_ascii. unfold escape_unicode. apply Forall_app. split; [now apply printable_check|]. apply Forall_app.
    split; [apply fmt_printable; now right|now apply printable_check].
  Qed.
  Lemma esc_tidy n : scalar n -> tidy (esc n).
  Proof.
    intros S. unfold esc. destruct (N.ltb_spec n 0x80) as [H|H].
    - unfold escape_ascii. repeat match goal with |- context [if Ascii.eqb ?c ?d then _ else _] => destruct (Ascii.eqb_spec c d); [now apply tidy_ascii, printable_check|] end.
      destruct (Ascii.eqb_spec (ascii_of_N n) quote) as [->|_]; [now apply tidy_ascii, printable_check|].
      destruct (Ascii.eqb_spec (ascii_of_N n) backslash) as [->|_]; [now apply tidy_ascii, printable_check|]. cbn [orb].
      destruct (Messages.between 32 126 (ascii_of_N n)) eqn:E; [apply tidy_ascii, printable_check; cbn [forallb]; now rewrite E|apply escape_unicode_tidy].
    - unfold escape_other. destruct (printable n) eqn:P; [|apply escape_unicode_tidy]. apply printable_law in P.
      exists [n]. split; [|cbn [flat_map]; now rewrite app_nil_r]. constructor; [|constructor]. split; [exact S|unfold control; lia].
  Qed.
  Lemma debug_tidy s : unicode s -> tidy (debug_str s).
  Proof.
    intros (ns & H & ->). unfold debug_str. rewrite escape_all by exact H.
    change (quote :: flat_map esc ns ++ [quote]) with ([quote] ++ flat_map esc ns ++ [quote]).
    apply tidy_app; [now apply tidy_ascii, printable_check|]. apply tidy_app; [|now apply tidy_ascii, printable_check].
    induction H as [|n ns Hn H IH]; [exists []; split; [constructor|reflexivity]|]. cbn [flat_map]. apply tidy_app; [now apply esc_tidy|exact IH].
  Qed.

  (** *** Reading it back *)
  Lemma split_at_here x s t : ~ In x s -> split_at x (s ++ x :: t) = Some (s, t).
  Proof.
    induction s as [|c s IH]; intros H; cbn [List.app split_at].
    - now rewrite Ascii.eqb_refl.
    - destruct (Ascii.eqb_spec c x) as [->|_]; [destruct H; now left|]. rewrite IH; [reflexivity|]. intros I. apply H. now right.
  Qed.
  Lemma body_unicode k n rest : literal_body (S k) (escape_unicode n ++ rest) =
    match literal_body k rest with Some (t, r) => Some (utf8 n ++ t, r) | None => None end.
  Proof.
    assert (escape_unicode n ++ rest = "\"%char :: "u"%char :: "{"%char :: fmt_hex n ++ "}"%char :: rest) as ->.
    { unfold escape_unicode. rewrite <- !app_assoc. reflexivity. }
    cbn [literal_body]. change (Ascii.eqb "\" """") with false. change (Ascii.eqb "\" "\") with true. cbv iota.
    rewrite split_at_here.
    - unfold fmt_hex. rewrite fmt_radix_numeral by now right. destruct (literal_body k rest) as [[t r]|]; reflexivity.
    - intros I. pose proof (fmt_hexits 16 n (or_intror eq_refl)) as F. rewrite Forall_forall in F. apply F in I. revert I. vm_compute. intuition discriminate.
  Qed.
  Lemma body_raw k c rest : c <> """"%char -> c <> "\"%char ->
    literal_body (S k) (c :: rest) = match literal_body k rest with Some (t, r) => Some (c :: t, r) | None => None end.
  Proof. intros H1 H2. cbn [literal_body]. apply Ascii.eqb_neq in H1, H2. now rewrite H1, H2. Qed.
  Lemma raw_high c : 0x80 <= code c -> c <> """"%char /\ c <> "\"%char.
  Proof. intros H. split; intros ->; now vm_compute in H. Qed.

  (** One character is read back, in no more steps than it has bytes. *)
  Lemma body_esc n : scalar n -> exists j, (j <= List.length (esc n))%nat /\ (1 <= j)%nat /\ forall k rest,
    literal_body (j + k) (esc n ++ rest) = match literal_body k rest with Some (t, r) => Some (utf8 n ++ t, r) | None => None end.
  Proof.
    intros S. unfold esc. destruct (N.ltb_spec n 0x80) as [H|H].
    - assert (utf8 n = [ascii_of_N n]) as E by now apply utf8_one.
      assert (code (ascii_of_N n) = n) as C by (apply code_ascii; lia).
      unfold escape_ascii.
      repeat match goal with |- context [if Ascii.eqb ?c ?d then _ else _] => destruct (Ascii.eqb_spec c d) as [E'|_];
        [exists 1%nat; split; [cbn; lia|]; split; [lia|]; intros k rest; rewrite E, E'; reflexivity|] end.
      destruct (Ascii.eqb_spec (ascii_of_N n) quote) as [E'|N1].
      { exists 1%nat. split; [cbn; lia|]. split; [lia|]. intros k rest. rewrite E, E'. reflexivity. }
      destruct (Ascii.eqb_spec (ascii_of_N n) backslash) as [E'|N2].
      { exists 1%nat. split; [cbn; lia|]. split; [lia|]. intros k rest. rewrite E, E'. reflexivity. }
      cbn [orb]. destruct (Messages.between 32 126 (ascii_of_N n)) eqn:B.
      + exists 1%nat. split; [cbn; lia|]. split; [lia|]. intros k rest. rewrite E. now apply body_raw.
      + exists 1%nat. split; [unfold escape_unicode; cbn; lia|]. split; [lia|]. intros k rest. rewrite C. apply body_unicode.
    - unfold escape_other. destruct (printable n) eqn:P.
      + exists (List.length (utf8 n)). split; [lia|]. split.
        { destruct (utf8_cases n S) as [(? & -> & _)|[(_ & a & b & -> & _)|[(_ & a & b & c & -> & _)|(_ & a & b & c & d & -> & _)]]]; cbn; lia. }
        intros k rest. assert (Forall (fun c => 0x80 <= code c) (utf8 n)) as F.
        { apply Forall_forall. intros c Hc. destruct (utf8_bytes n c S Hc) as [[X _]|X]; [lia|exact X]. }
        induction F as [|c s Hc F IH]; cbn [List.app List.length Nat.add].
        * now destruct (literal_body k rest) as [[t r]|].
        * destruct (raw_high c Hc). rewrite body_raw by assumption. rewrite IH. now destruct (literal_body k rest) as [[t r]|].
      + exists 1%nat. split; [unfold escape_unicode; cbn; lia|]. split; [lia|]. intros k rest. apply body_unicode.
  Qed.
  Lemma body_all ns rest : Forall scalar ns -> forall k, (List.length (flat_map esc ns) < k)%nat ->
    literal_body k (flat_map esc ns ++ quote :: rest) = Some (flat_map utf8 ns, rest).
  Proof.
    intros H. induction H as [|n ns Hn H IH]; intros k Hk; cbn [flat_map].
    - destruct k as [|k]; [cbn in Hk; lia|]. reflexivity.
    - destruct (body_esc n Hn) as (j & Hj & _ & E). cbn [flat_map] in Hk. rewrite app_length in Hk.
      replace k with (j + (k - j))%nat by lia. rewrite <- app_assoc, E, IH by lia. reflexivity.
  Qed.
  Lemma c71_literal_U : forall s rest, unicode s -> literal (debug_str s ++ rest) = Some (s, rest).
  Proof.
    intros s rest (ns & H & ->). unfold debug_str. rewrite escape_all by exact H. cbn [List.app literal].
    change (Ascii.eqb quote """") with true. cbv iota. rewrite <- app_assoc. cbn [List.app]. apply body_all; [exact H|].
    rewrite app_length. cbn [List.length]. lia.
  Qed.
  Lemma c71_plain_U : forall s, Forall (fun c => printable_ascii c /\ c <> """"%char /\ c <> "\"%char) s ->
    debug_str s = lit """" ++ s ++ lit """".
  Proof.
    intros s H. unfold debug_str. change (lit """") with [quote]. cbn [List.app]. do 2 f_equal.
    induction H as [|c s ((H1 & H2) & H3 & H4) H IH]; [reflexivity|]. cbn [escape_debug]. fold (code c) in *.
    replace (code c <? 0x80) with true by lia. rewrite IH. unfold escape_ascii.
    repeat match goal with |- context [if Ascii.eqb ?c ?d then _ else _] => destruct (Ascii.eqb_spec c d) as [->|_]; [now vm_compute in H1|] end.
    apply Ascii.eqb_neq in H3, H4. unfold quote, backslash. rewrite H3, H4. cbn [orb]. unfold Messages.between.
    replace (_ && _) with true by lia. reflexivity.
  Qed.
End Escapes.
