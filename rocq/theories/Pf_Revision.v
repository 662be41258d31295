(** * Pf_Revision: proofs about the versions of packages *)
From Verif Require Import RustBase SpecText Package SpecPackage Demo TextFacts Pf_Text Pf_Package Revision SpecRevision.
From Verif Require Pf_Whole Pf_Told Pf_Main.

Lemma span_all p s t : forallb p s = true -> (forall c t', t = c :: t' -> p c = false) -> span p (s ++ t) = (s, t).
Proof.
  induction s as [|c s IH]; cbn [app forallb span]; intros Hs Ht.
  - destruct t as [|c t]; [reflexivity|]. cbn [span]. now rewrite (Ht c t eq_refl).
  - apply andb_prop in Hs. destruct Hs as [-> Hs]. now rewrite IH.
Qed.
Lemma span_whole p s : forallb p s = true -> span p s = (s, []).
Proof. intros Hs. rewrite <- (app_nil_r s) at 1. now apply span_all. Qed.
Lemma span_none p c s : p c = false -> span p (c :: s) = ([], c :: s).
Proof. cbn. now intros ->. Qed.

Lemma digit_char c : In c (lit "0123456789") -> numeric c = true /\ alphabetic c = false /\ c <> ":"%char /\ c <> "-"%char.
Proof. intros H. repeat (destruct H as [<- |H]; [repeat split; discriminate|]). destruct H. Qed.

Lemma usual_facts n s : usual 10 n s -> number s = n /\ s <> [] /\ Forall (fun c => In c (lit "0123456789")) s.
Proof.
  intros U. split; [unfold number; destruct U as (-> & _); reflexivity|]. apply Pf_Whole.usual_dec_iff in U. subst s.
  split; [apply (Pf_Whole.usual_nonempty 10 n), Pf_Whole.usual_dec|].
  apply Forall_forall. intros c. apply Pf_Told.dec_chars.
Qed.
Lemma digits_forallb p s : (forall c, In c (lit "0123456789") -> p c = true) -> Forall (fun c => In c (lit "0123456789")) s -> forallb p s = true.
Proof. intros H F. apply forallb_forall. intros c I. apply H. exact (proj1 (Forall_forall _ _) F c I). Qed.

Lemma plain_debian n s : usual 10 n s -> debian_parts s = (0, s, []).
Proof.
  intros U. destruct (usual_facts n s U) as (_ & _ & F). unfold debian_parts.
  rewrite span_whole by (apply digits_forallb; [|exact F]; intros c I; destruct (digit_char c I) as (_ & _ & A & _); apply Bool.negb_true_iff; now apply Ascii.eqb_neq).
  unfold cut_last. rewrite span_whole; [reflexivity|].
  apply digits_forallb; [|now apply Forall_rev]. intros c I. destruct (digit_char c I) as (_ & _ & _ & A). apply Bool.negb_true_iff. now apply Ascii.eqb_neq.
Qed.

Lemma compare_plain n n' s s' : usual 10 n s -> usual 10 n' s' -> compare_debian s s' = (n ?= n').
Proof.
  intros U U'. unfold compare_debian. rewrite (plain_debian n s U), (plain_debian n' s' U').
  destruct (usual_facts n s U) as (<- & Z & F), (usual_facts n' s' U') as (<- & Z' & F').
  unfold first_of at 1. rewrite N.compare_refl. cbn iota.
  assert (P : forall m, compare_parts (S m) s s' = (number s ?= number s')).
  { intros m. cbn [compare_parts]. destruct s as [|c s]; [congruence|]. destruct s' as [|c' s']; [congruence|].
    pose proof (Forall_inv F) as D. pose proof (Forall_inv F') as D'. cbv beta in D, D'.
    rewrite !span_none by (now rewrite (proj1 (digit_char _ D)) || now rewrite (proj1 (digit_char _ D'))).
    rewrite !span_whole by (apply digits_forallb; [intros x I; apply (digit_char x I)|assumption]).
    cbn [compare_weights]. unfold first_of. destruct (number (c :: s) ?= number (c' :: s')); [|reflexivity..]. now destruct m. }
  unfold compare_debian_part. rewrite P. unfold first_of. destruct (number s ?= number s'); reflexivity.
Qed.

(** ** Fields *)
Lemma lines_inj ls : forall ls', Forall (fun l => ~ In (byte 10) l) ls -> Forall (fun l => ~ In (byte 10) l) ls' ->
  text_of_lines ls = text_of_lines ls' -> ls = ls'.
Proof.
  induction ls as [|l ls IH]; intros [|l' ls'] F F' E; [reflexivity| | |].
  - cbn in E. destruct l'; discriminate.
  - cbn in E. destruct l; discriminate.
  - inversion F as [|? ? N1 F1]; subst. inversion F' as [|? ? N2 F2]; subst.
    change (text_of_lines (l :: ls)) with ((l ++ [byte 10]) ++ text_of_lines ls) in E.
    change (text_of_lines (l' :: ls')) with ((l' ++ [byte 10]) ++ text_of_lines ls') in E.
    rewrite <- !app_assoc in E.
    apply (cut_unique (fun c => c <> byte 10)) in E.
    + destruct E as [-> E]. apply (f_equal (@tl ascii)) in E. cbn [tl app] in E. f_equal. now apply IH.
    + apply Forall_forall. intros c I ->. now apply N1.
    + apply Forall_forall. intros c I ->. now apply N2.
    + eexists _, _; split; [reflexivity|]. now intros H.
    + eexists _, _; split; [reflexivity|]. now intros H.
Qed.

Lemma field_unique text k v v' : ~ In (byte 10) k -> field text k v -> field text k v' -> v = v'.
Proof.
  intros K (b & a & E & N1 & F) (b' & a' & E' & N2 & F'). subst text.
  assert (L : forall w, ~ In (byte 10) w -> ~ In (byte 10) (k ++ lit ": " ++ w)).
  { intros w W I. apply in_app_or in I. destruct I as [I|I]; [now apply K|]. apply in_app_or in I. destruct I as [I|I]; [|now apply W].
    cbn in I. destruct I as [I|[I|[]]]; discriminate. }
  apply lines_inj in E'.
  - assert (I : In (k ++ lit ": " ++ v) (b' ++ (k ++ lit ": " ++ v') :: a')) by (rewrite <- E'; apply in_or_app; right; now left).
    apply in_app_or in I. rewrite Forall_forall in F'. destruct I as [I|[I|I]].
    + destruct (F' (k ++ lit ": " ++ v)) as [_ H]; [apply in_or_app; now left|]. now destruct (H v).
    + apply app_inv_head in I. now apply app_inv_head in I.
    + destruct (F' (k ++ lit ": " ++ v)) as [_ H]; [apply in_or_app; now right|]. now destruct (H v).
  - apply Forall_app in F. destruct F as [F1 F2]. apply Forall_app. split; [|constructor; [now apply L|]].
    + revert F1. apply Forall_impl. now intros l [].
    + revert F2. apply Forall_impl. now intros l [].
  - apply Forall_app in F'. destruct F' as [F1 F2]. apply Forall_app. split; [|constructor; [now apply L|]].
    + revert F1. apply Forall_impl. now intros l [].
    + revert F2. apply Forall_impl. now intros l [].
Qed.

Lemma version_field (T : Tools) elf p n count v :
  usual 10 n count -> git_count = count ++ [byte 10] -> debianize elf = ROk p -> field (control p) (lit "Version") v -> v = count.
Proof.
  intros U G D V. destruct (c104_control T elf count p G) as (name & deps & kib & _ & _ & _ & _ & _ & V' & _).
  - destruct (usual_facts n count U) as (_ & Z & F). now split.
  - exact D.
  - eapply field_unique; [|exact V|exact V']. cbn. intros H. decompose [or] H; discriminate || assumption.
Qed.

Lemma c106_debian : forall (T T' : Tools) (elf elf' : str) (p p' : package) (n n' : N) (count count' version version' : str),
  usual 10 n count -> @git_count T = count ++ [byte 10] -> @debianize T elf = ROk p -> field (control p) (lit "Version") version ->
  usual 10 n' count' -> @git_count T' = count' ++ [byte 10] -> @debianize T' elf' = ROk p' -> field (control p') (lit "Version") version' ->
  compare_debian version version' = (n ?= n').
Proof.
  intros T T' elf elf' p p' n n' count count' v v' U G D V U' G' D' V'.
  rewrite (version_field T elf p n count v U G D V), (version_field T' elf' p' n' count' v' U' G' D' V'). now apply compare_plain.
Qed.

(** ** Arch Linux *)
Lemma rstrip_digits n s : usual 10 n s -> rstrip_newlines (s ++ [byte 10]) = s.
Proof.
  intros U. destruct (usual_facts n s U) as (_ & Z & F). unfold rstrip_newlines. rewrite rev_app_distr. cbn [rev app drop_newlines].
  change (Ascii.eqb (byte 10) "010") with true. cbv iota.
  assert (F' := Forall_rev F). destruct (rev s) as [|c r] eqn:E.
  - apply (f_equal (@rev ascii)) in E. rewrite rev_involutive in E. now destruct Z.
  - cbn [drop_newlines]. apply Forall_inv in F'. replace (Ascii.eqb c "010") with false.
    + rewrite <- E. apply rev_involutive.
    + symmetry. apply Ascii.eqb_neq. intros ->. cbn in F'. decompose [or] F'; discriminate || assumption.
Qed.

Lemma arch_split x : arch_parts (lit "r" ++ x ++ lit "-1") = (lit "0", lit "r" ++ x, Some (lit "1")).
Proof.
  unfold arch_parts. change (lit "r" ++ x ++ lit "-1") with ("r"%char :: x ++ lit "-1"). rewrite span_none by reflexivity. cbv iota beta.
  unfold cut_last. change ("r"%char :: x ++ lit "-1") with (("r"%char :: x) ++ lit "-1"). rewrite rev_app_distr. change (rev (lit "-1")) with (lit "1-").
  cbn [app lit list_ascii_of_string span]. change (negb (Ascii.eqb "1" "-")) with true. change (negb (Ascii.eqb "-" "-")) with false. cbv iota beta. now rewrite rev_involutive.
Qed.

Lemma c106_arch : forall (n n' : N) (count count' hash hash' : str),
  usual 10 n count -> usual 10 n' count' -> n <> n' ->
  compare_arch (arch_version (count ++ [byte 10]) hash) (arch_version (count' ++ [byte 10]) hash') = (n ?= n').
Proof.
  intros n n' count count' hash hash' U U' Ne. unfold arch_version, pkgver, pkgrel. rewrite (rstrip_digits n count U), (rstrip_digits n' count' U').
  generalize (rstrip_newlines hash), (rstrip_newlines hash'). clear hash hash'. intros h h'.
  assert (A : forall c k, (lit "r" ++ c ++ lit "." ++ k) ++ lit "-" ++ lit "1" = lit "r" ++ (c ++ lit "." ++ k) ++ lit "-1").
  { intros c k. change (lit "-" ++ lit "1") with (lit "-1"). now rewrite !app_assoc. }
  rewrite !A. unfold compare_arch. rewrite !arch_split. change (compare_arch_part (lit "0") (lit "0")) with Eq. unfold first_of at 1.
  destruct (usual_facts n count U) as (<- & Z & F), (usual_facts n' count' U') as (<- & Z' & F').
  assert (P : compare_arch_part (lit "r" ++ count ++ lit "." ++ h) (lit "r" ++ count' ++ lit "." ++ h') = (number count ?= number count')).
  { unfold compare_arch_part. change (lit "r" ++ count ++ lit "." ++ h) with ("r"%char :: count ++ lit "." ++ h). change (lit "r" ++ count' ++ lit "." ++ h') with ("r"%char :: count' ++ lit "." ++ h').
    cbn [List.length Nat.add]. generalize (List.length (count ++ lit "." ++ h) + S (List.length (count' ++ lit "." ++ h')))%nat as m. intros m.
    assert (R : forall f a b, (forall c t, a = c :: t -> alphabetic c = false) -> (forall c t, b = c :: t -> alphabetic c = false) ->
              compare_segments (S f) ("r"%char :: a) ("r"%char :: b) = compare_segments f a b).
    { intros f a b Ha Hb. cbn [compare_segments]. rewrite !(span_none (fun c => negb (numeric c || alphabetic c))) by reflexivity. cbv beta iota.
      change (numeric "r") with false. cbv iota. change ("r"%char :: a) with (["r"%char] ++ a). change ("r"%char :: b) with (["r"%char] ++ b). rewrite (span_all alphabetic ["r"%char] a), (span_all alphabetic ["r"%char] b) by (reflexivity || assumption). reflexivity. }
    assert (G : forall c k x t, c <> [] -> Forall (fun c => In c (lit "0123456789")) c -> c ++ k = x :: t -> In x (lit "0123456789")).
    { intros [|y c] k x t Nc Fc E; [congruence|]. injection E as -> _. exact (Forall_inv Fc). }
    rewrite R; [|intros c t E; apply (digit_char c), (G _ _ _ _ Z F E)|intros c t E; apply (digit_char c), (G _ _ _ _ Z' F' E)].
    cbn [compare_segments].
    destruct count as [|c count]; [congruence|]. destruct count' as [|c' count']; [congruence|].
    pose proof (Forall_inv F) as D. pose proof (Forall_inv F') as D'. cbv beta in D, D'.
    cbn [app]. rewrite !(span_none (fun c => negb (numeric c || alphabetic c))) by (now rewrite (proj1 (digit_char _ D)) || now rewrite (proj1 (digit_char _ D'))).
    cbv beta iota. rewrite (proj1 (digit_char _ D)).
    change (c :: count ++ lit "." ++ h) with ((c :: count) ++ lit "." ++ h). change (c' :: count' ++ lit "." ++ h') with ((c' :: count') ++ lit "." ++ h').
    rewrite !span_all; [|apply digits_forallb; [intros x I; apply (digit_char x I)|assumption]|intros x t E; injection E as <- _; reflexivity|apply digits_forallb; [intros x I; apply (digit_char x I)|assumption]|intros x t E; injection E as <- _; reflexivity].
    cbn [Nat.compare List.length]. unfold first_of. destruct (number (c :: count) ?= number (c' :: count')) eqn:Q; [now apply N.compare_eq in Q|reflexivity..]. }
  rewrite P. unfold first_of. destruct (number count ?= number count') eqn:Q; [now apply N.compare_eq in Q|reflexivity..].
Qed.

Lemma hex_check h : forallb (fun c => existsb (Ascii.eqb c) (lit "0123456789abcdef")) h = true -> Forall (fun c => In c (lit "0123456789abcdef")) h.
Proof.
  intros H. apply Forall_forall. intros c I. apply (proj1 (forallb_forall _ _) H) in I. apply existsb_exists in I.
  destruct I as (d & I & E). apply Ascii.eqb_eq in E. now subst d.
Qed.

Lemma drop_others s : Forall (fun c => c <> byte 10) s -> rstrip_newlines (s ++ [byte 10]) = s.
Proof.
  intros F. unfold rstrip_newlines. rewrite rev_app_distr. cbn [rev app drop_newlines].
  change (Ascii.eqb (byte 10) "010") with true. cbv iota.
  assert (F' := Forall_rev F). destruct (rev s) as [|c r] eqn:E.
  - apply (f_equal (@rev ascii)) in E. rewrite rev_involutive in E. now rewrite E.
  - cbn [drop_newlines]. apply Forall_inv in F'. replace (Ascii.eqb c "010") with false.
    + rewrite <- E. apply rev_involutive.
    + symmetry. apply Ascii.eqb_neq. exact F'.
Qed.

Definition allowed (c : ascii) : bool :=
  negb (existsb (Ascii.eqb c) (lit ":/-")) && negb (existsb (N.eqb (N_of_ascii c)) [9; 10; 11; 12; 13; 28; 29; 30; 31; 32]).
Lemma allowed_spec c : allowed c = true -> ~ In c (lit ":/-") /\ ~ blank c.
Proof.
  unfold allowed. intros H. apply andb_prop in H. destruct H as [H1 H2]. apply Bool.negb_true_iff in H1, H2. split; intros I.
  - enough (existsb (Ascii.eqb c) (lit ":/-") = true) by congruence. apply existsb_exists. exists c. split; [exact I|apply Ascii.eqb_refl].
  - enough (existsb (N.eqb (N_of_ascii c)) [9; 10; 11; 12; 13; 28; 29; 30; 31; 32] = true) by congruence.
    apply existsb_exists. exists (N_of_ascii c). split; [exact I|apply N.eqb_refl].
Qed.
Lemma hex_allowed c : In c (lit "0123456789abcdef") -> allowed c = true.
Proof. intros H. repeat (destruct H as [<- |H]; [reflexivity|]). destruct H. Qed.
Lemma hex_other c : In c (lit "0123456789abcdef") -> c <> byte 10.
Proof. intros H ->. apply hex_allowed in H. discriminate H. Qed.

Lemma c106_arch_allowed : forall (n : N) (count hash : str),
  usual 10 n count -> Forall (fun c => In c (lit "0123456789abcdef")) hash ->
  pkgver (count ++ [byte 10]) (hash ++ [byte 10]) <> [] /\
  Forall (fun c => ~ In c (lit ":/-") /\ ~ blank c) (pkgver (count ++ [byte 10]) (hash ++ [byte 10])).
Proof.
  intros n count hash U F. unfold pkgver. rewrite (rstrip_digits n count U), (drop_others hash).
  - split; [discriminate|]. apply (Forall_impl _ allowed_spec). destruct (usual_facts n count U) as (_ & _ & D).
    apply Forall_app. split; [repeat constructor|]. apply Forall_app. split; [|apply Forall_app; split; [repeat constructor|]].
    + revert D. apply Forall_impl. intros c I. repeat (destruct I as [<- |I]; [reflexivity|]). destruct I.
    + revert F. apply Forall_impl. apply hex_allowed.
  - revert F. apply Forall_impl. apply hex_other.
Qed.

Lemma c106_arch_equal_refuted : exists count hash hash',
  let hex h := List.length h = 7%nat /\ Forall (fun c => In c (lit "0123456789abcdef")) h in
  usual 10 21 count /\ hex hash /\ hex hash' /\
  let v := arch_version (count ++ [byte 10]) (hash ++ [byte 10]) in
  let v' := arch_version (count ++ [byte 10]) (hash' ++ [byte 10]) in
  v <> v' /\ compare_arch v v' = Eq.
Proof.
  exists (lit "21"), (lit "00a0012"), (lit "0a00012"). cbv zeta.
  split; [apply Pf_Whole.usual_dec_iff; reflexivity|].
  split; [split; [reflexivity|now apply hex_check]|]. split; [split; [reflexivity|now apply hex_check]|].
  split; [|vm_compute; reflexivity]. intros E. assert (X : str_eqb (lit "r21.00a0012-1") (lit "r21.0a00012-1") = true); [|vm_compute in X; discriminate X].
  now apply Pf_Main.str_eqb_eq.
Qed.
