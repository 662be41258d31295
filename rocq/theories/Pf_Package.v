(** * Pf_Package: proofs about the packaging script *)
From Verif Require Import RustBase SpecText SpecOrdering Package SpecPackage Demo Env TextFacts Pf_Text Pf_Main.
From Verif Require Pf_Whole.
From Coq Require Import ZifyBool ZifyNat ZifyN.
Ltac Zify.zify_post_hook ::= idtac.

(** ** The header *)
Lemma read_is k t (f : str) : List.length t = k -> str_eqb (firstn k f) t = true -> f = t ++ skipn k f.
Proof. intros L H. apply str_eqb_eq in H. rewrite <- H. symmetry. apply firstn_skipn. Qed.

Definition good_start (f : str) (order : ascii) (rest : str) : Prop :=
  (order = byte 1 \/ order = byte 2) /\ f = byte 127 :: lit "ELF" ++ [byte 2; order; byte 1] ++ rest.

Definition after_start (order : ascii) (rest : str) : result str py_error :=
  rbind (unpack_H (Ascii.eqb order (byte 2)) (firstn 2 (skipn 11 rest))) (fun n =>
  match dict_get N.eqb n
    [(40, lit "armel"); (62, lit "amd64"); (183, lit "arm64"); (3, lit "i386"); (8, lit "mips64el"); (21, lit "ppc64el"); (22, lit "s390x")] with
  | Some name => ROk name
  | None => RErr KeyError
  end).

Lemma machine_good f order rest : good_start f order rest -> get_elf_machine f = after_start order rest.
Proof. intros [[->| ->] ->]; do 13 (destruct rest as [|? rest]; [reflexivity|]); reflexivity. Qed.

Lemma machine_cases f : (exists order rest, good_start f order rest) \/ get_elf_machine f = RErr ValueError.
Proof.
  unfold get_elf_machine, py_read. destruct (str_eqb (firstn 4 f) elf_magic) eqn:E1; [|now right]. cbn [negb].
  apply (read_is 4 elf_magic) in E1; [|reflexivity]. revert E1. generalize (skipn 4 f). intros f1 ->.
  destruct (str_eqb (firstn 1 f1) ["002"%char]) eqn:E2; [|now right].
  apply (read_is 1) in E2; [|reflexivity]. revert E2. generalize (skipn 1 f1). intros f2 ->. cbn [rbind].
  destruct (str_eqb (firstn 1 f2) ["002"%char]) eqn:E3; cbn [rbind].
  - apply (read_is 1) in E3; [|reflexivity]. revert E3. generalize (skipn 1 f2). intros f3 ->.
    destruct (str_eqb (firstn 1 f3) ["001"%char]) eqn:E4; [|now right].
    apply (read_is 1) in E4; [|reflexivity]. left. exists (byte 2), (skipn 1 f3). split; [now right|]. rewrite E4 at 1. reflexivity.
  - destruct (str_eqb (firstn 1 f2) ["001"%char]) eqn:E5; cbn [negb rbind]; [|now right].
    apply (read_is 1) in E5; [|reflexivity]. revert E5. generalize (skipn 1 f2). intros f3 E5.
    destruct (str_eqb (firstn 1 f3) ["001"%char]) eqn:E4; [|now right].
    apply (read_is 1) in E4; [|reflexivity]. left. exists (byte 1), (skipn 1 f3). split; [now left|]. rewrite E5, E4 at 1. reflexivity.
Qed.

Lemma good_start_unique f o r o' r' : good_start f o r -> good_start f o' r' -> o = o' /\ r = r'.
Proof. intros [_ E] [_ E']. rewrite E in E'. cbn [app lit list_ascii_of_string] in E'. now inversion E'. Qed.

Lemma header_start f order m0 m1 : (order = byte 1 \/ order = byte 2) ->
  (elf_header f (byte 2) order (byte 1) m0 m1 <-> exists rest, good_start f order rest /\ firstn 2 (skipn 11 rest) = [m0; m1]).
Proof.
  intros Ho. split.
  - intros (a & t & r & La & Lt & ->). exists (a ++ t ++ [m0; m1] ++ r). split; [split; [exact Ho|reflexivity]|].
    do 9 (destruct a as [|? a]; [discriminate La|]). destruct a; [|discriminate La]. do 2 (destruct t as [|? t]; [discriminate Lt|]). destruct t; [|discriminate Lt]. reflexivity.
  - intros (rest & [_ E] & H). exists (firstn 9 rest), (firstn 2 (skipn 9 rest)), (skipn 13 rest).
    do 11 (destruct rest as [|? rest]; [discriminate H|]). cbn [skipn firstn] in H.
    destruct rest as [|x [|y rest]]; try discriminate H. injection H as -> ->. repeat split. exact E.
Qed.

Lemma number_unpack order m0 m1 n : machine_number order m0 m1 n <->
  (order = byte 1 \/ order = byte 2) /\ unpack_H (Ascii.eqb order (byte 2)) [m0; m1] = ROk n.
Proof.
  unfold machine_number, unpack_H. split.
  - intros [[-> ->]|[-> ->]]; (split; [auto|]).
    + change (Ascii.eqb (byte 1) (byte 2)) with false. cbv iota. f_equal. lia.
    + change (Ascii.eqb (byte 2) (byte 2)) with true. cbv iota. f_equal. lia.
  - intros [[->| ->] H]; [left|right]; (split; [reflexivity|]).
    + change (Ascii.eqb (byte 1) (byte 2)) with false in H. cbv iota in H. injection H as H. lia.
    + change (Ascii.eqb (byte 2) (byte 2)) with true in H. cbv iota in H. injection H as H. lia.
Qed.

Lemma names_get n name : dict_get N.eqb n
    [(40, lit "armel"); (62, lit "amd64"); (183, lit "arm64"); (3, lit "i386"); (8, lit "mips64el"); (21, lit "ppc64el"); (22, lit "s390x")] = Some name <->
  In (n, name) debian_names.
Proof.
  split.
  - unfold dict_get. repeat match goal with |- context [N.eqb ?a ?b] => destruct (N.eqb_spec a b); [intros E; injection E as <-; subst; vm_compute; tauto|] end. discriminate.
  - unfold debian_names. cbn [In]. intros H. repeat destruct H as [H|H]; try (injection H as <- <-; reflexivity). contradiction.
Qed.

Lemma after_ok f order rest name : good_start f order rest -> (after_start order rest = ROk name <-> architecture f name).
Proof.
  intros G. pose proof G as [Ho _]. unfold after_start. split.
  - intros H. destruct (firstn 2 (skipn 11 rest)) as [|m0 [|m1 [|x l]]] eqn:E; try discriminate H.
    destruct (unpack_H (Ascii.eqb order (byte 2)) [m0; m1]) as [n|] eqn:U; [|discriminate H]. cbn [rbind] in H.
    destruct (dict_get _ n _) as [nm|] eqn:D in H; [|discriminate H]. injection H as ->.
    exists order, m0, m1, n. split; [apply header_start; [exact Ho|now exists rest]|]. split; [now apply number_unpack|now apply names_get].
  - intros (o & m0 & m1 & n & Hh & Hm & Hn). apply number_unpack in Hm. destruct Hm as [Ho' U].
    apply header_start in Hh; [|exact Ho']. destruct Hh as (r & G' & E).
    destruct (good_start_unique _ _ _ _ _ G G') as [<- <-]. rewrite E, U. cbn [rbind]. apply names_get in Hn. now rewrite Hn.
Qed.

Lemma header_good f order m0 m1 : (order = byte 1 \/ order = byte 2) -> elf_header f (byte 2) order (byte 1) m0 m1 -> exists rest, good_start f order rest.
Proof. intros Ho H. apply header_start in H; [|exact Ho]. destruct H as (r & H & _). now exists r. Qed.

Lemma c102_architecture : forall (f name : str), get_elf_machine f = ROk name <-> architecture f name.
Proof.
  intros f name. destruct (machine_cases f) as [(o & r & G)|H].
  - rewrite (machine_good _ _ _ G). now apply after_ok.
  - split; [congruence|]. intros A. pose proof A as (o & m0 & m1 & n & Hh & Hm & Hn). apply number_unpack in Hm. destruct Hm as [Ho _].
    destruct (header_good _ _ _ _ Ho Hh) as [r G].
    apply (after_ok _ _ _ _ G) in A. rewrite <- (machine_good _ _ _ G) in A. congruence.
Qed.

Lemma c102_errors : forall (f : str),
  (get_elf_machine f = RErr KeyError <->
     exists order m0 m1 n, elf_header f (byte 2) order (byte 1) m0 m1 /\ machine_number order m0 m1 n /\ forall name, ~ In (n, name) debian_names) /\
  (get_elf_machine f = RErr StructError <->
     exists order rest, (order = byte 1 \/ order = byte 2) /\ f = byte 127 :: lit "ELF" ++ [byte 2; order; byte 1] ++ rest /\ (List.length rest < 13)%nat).
Proof.
  intros f. split.
  - split.
    + intros H. destruct (machine_cases f) as [(o & r & G)|H']; [|congruence]. rewrite (machine_good _ _ _ G) in H.
      unfold after_start in H. pose proof G as [Ho _].
      destruct (firstn 2 (skipn 11 r)) as [|m0 [|m1 [|x l]]] eqn:E; try discriminate H.
      destruct (unpack_H (Ascii.eqb o (byte 2)) [m0; m1]) as [n|] eqn:U; [|discriminate U]. cbn [rbind] in H.
      exists o, m0, m1, n. split; [apply header_start; [exact Ho|now exists r]|]. split; [now apply number_unpack|].
      intros name I. apply names_get in I. rewrite I in H. discriminate H.
    + intros (o & m0 & m1 & n & Hh & Hm & Hn). apply number_unpack in Hm. destruct Hm as [Ho U].
      apply header_start in Hh; [|exact Ho]. destruct Hh as (r & G & E). rewrite (machine_good _ _ _ G). unfold after_start. rewrite E, U. cbn [rbind].
      destruct (dict_get _ n _) as [nm|] eqn:D; [|reflexivity]. apply names_get in D. now apply Hn in D.
  - split.
    + intros H. destruct (machine_cases f) as [(o & r & G)|H']; [|congruence]. rewrite (machine_good _ _ _ G) in H.
      exists o, r. pose proof G as [Ho E]. split; [exact Ho|]. split; [exact E|].
      destruct (Nat.lt_ge_cases (List.length r) 13) as [L|L]; [exact L|]. exfalso. unfold after_start in H.
      do 13 (destruct r as [|? r]; [cbn in L; lia|]). cbn [skipn firstn unpack_H rbind] in H.
      destruct (dict_get _ _ _) in H; discriminate H.
    + intros (o & r & Ho & E & L). assert (G : good_start f o r) by now split. rewrite (machine_good _ _ _ G). unfold after_start.
      do 13 (destruct r as [|? r]; [reflexivity|]). cbn in L. lia.
Qed.

Lemma c102_32_bits_refused : forall (f : str) (order version m0 m1 : ascii),
  elf_header f (byte 1) order version m0 m1 -> get_elf_machine f = RErr ValueError.
Proof. intros f o v m0 m1 (a & t & r & _ & _ & ->). reflexivity. Qed.

Lemma c102_byte_order_refuted : exists (f name : str) (m0 m1 : ascii),
  elf_header f (byte 2) (byte 2) (byte 1) m0 m1 /\ In name [lit "ppc64el"; lit "mips64el"] /\ get_elf_machine f = ROk name.
Proof.
  exists (byte 127 :: lit "ELF" ++ [byte 2; byte 2; byte 1] ++ repeat (byte 0) 9 ++ [byte 0; byte 3] ++ [byte 0; byte 21] ++ []), (lit "ppc64el"), (byte 0), (byte 21).
  split; [exists (repeat (byte 0) 9), [byte 0; byte 3], []; now repeat split|]. split; [now left|reflexivity].
Qed.

Lemma c102_header_only : forall (f g : str), firstn 20 f = firstn 20 g -> get_elf_machine f = get_elf_machine g.
Proof.
  assert (K : forall f, get_elf_machine f = get_elf_machine (firstn 20 f)).
  { intros f. do 20 (destruct f as [|? f]; [reflexivity|]). reflexivity. }
  intros f g E. now rewrite (K f), (K g), E.
Qed.

(** ** Regular expressions *)
Inductive mt : regex -> str -> list str -> Prop :=
| mt_lit l : mt (RLit l) l []
| mt_many p t : t <> [] -> Forall (fun c => p c = true) t -> mt (RMany p) t []
| mt_seq a b t u g h : mt a t g -> mt b u h -> mt (RSeq a b) (t ++ u) (g ++ h)
| mt_left a b t g : mt a t g -> mt (RAlt a b) t g
| mt_right a b t g : mt b t g -> mt (RAlt a b) t g
| mt_group a t g : mt a t g -> mt (RGroup a) t (t :: g).

Lemma re_lit_spec l : forall s rest, In rest (re_lit l s) <-> s = l ++ rest.
Proof.
  induction l as [|x l IH]; intros s rest; cbn [re_lit app].
  - split; [intros [H|[]]; exact H|intros ->; now left].
  - destruct s as [|y s]; [split; [intros []|discriminate]|].
    destruct (Ascii.eqb_spec x y) as [->|N]; [rewrite IH; split; [now intros ->|intros H; now injection H]|].
    split; [intros []|]. intros H. injection H as -> _. congruence.
Qed.

Lemma re_many_spec p : forall s rest, In rest (re_many p s) <-> exists t, s = t ++ rest /\ t <> [] /\ Forall (fun c => p c = true) t.
Proof.
  induction s as [|c s IH]; intros rest; cbn [re_many].
  - split; [intros []|]. intros (t & E & N & _). destruct t; [congruence|discriminate E].
  - destruct (p c) eqn:P.
    + rewrite in_app_iff, IH. split.
      * intros [(t & -> & N & F)|[->|[]]]; [exists (c :: t)|exists [c]]; repeat split; try discriminate; constructor; auto.
      * intros (t & E & N & F). destruct t as [|d t]; [congruence|]. injection E as <- ->. inversion F; subst.
        destruct t as [|d t]; [right; now left|left]. exists (d :: t). repeat split; [discriminate|assumption].
    + split; [intros []|]. intros (t & E & N & F). destruct t as [|d t]; [congruence|]. injection E as <- ->. inversion F; congruence.
Qed.

Lemma firstn_front {T} (t rest : list T) : firstn (List.length (t ++ rest) - List.length rest)%nat (t ++ rest) = t.
Proof. rewrite app_length. replace (List.length t + List.length rest - List.length rest)%nat with (List.length t + 0)%nat by lia. rewrite firstn_app_2. cbn [firstn]. apply app_nil_r. Qed.

Lemma re_run_spec r : forall s g rest, In (g, rest) (re_run r s) <-> exists t, s = t ++ rest /\ mt r t g.
Proof.
  induction r as [l|p|a IHa b IHb|a IHa b IHb|a IHa]; intros s g rest; cbn [re_run].
  - rewrite in_map_iff. split.
    + intros (x & E & I). injection E as <- <-. apply re_lit_spec in I. exists l. split; [exact I|constructor].
    + intros (t & -> & M). inversion M; subst. exists rest. split; [reflexivity|]. now apply re_lit_spec.
  - rewrite in_map_iff. split.
    + intros (x & E & I). injection E as <- <-. apply re_many_spec in I. destruct I as (t & E & N & F). exists t. split; [exact E|now constructor].
    + intros (t & -> & M). inversion M; subst. exists rest. split; [reflexivity|]. apply re_many_spec. now exists t.
  - rewrite in_flat_map. split.
    + intros ([g1 s1] & I1 & I2). apply in_map_iff in I2. destruct I2 as ([g2 s2] & E & I2). injection E as <- <-.
      apply IHa in I1. apply IHb in I2. destruct I1 as (t & -> & M1). destruct I2 as (u & -> & M2).
      exists (t ++ u). split; [apply app_assoc|now constructor].
    + intros (t & -> & M). inversion M; subst. rename t0 into t. exists (g0, u ++ rest). split.
      * apply IHa. exists t. split; [symmetry; apply app_assoc|assumption].
      * apply in_map_iff. exists (h, rest). split; [reflexivity|]. apply IHb. now exists u.
  - rewrite in_app_iff, IHa, IHb. split.
    + intros [(t & E & M)|(t & E & M)]; exists t; (split; [exact E|]); [now apply mt_left|now apply mt_right].
    + intros (t & E & M). inversion M; subst; [left|right]; now exists t.
  - rewrite in_map_iff. split.
    + intros ([g1 s1] & E & I). apply IHa in I. destruct I as (t & -> & M). injection E as <- <-. rewrite firstn_front. exists t. split; [reflexivity|now constructor].
    + intros (t & -> & M). inversion M; subst. exists (g0, rest). rewrite firstn_front. split; [reflexivity|]. apply IHa. now exists t.
Qed.

Definition at_end (x : list str * str) : bool := let '(_, rest) := x in match rest with [] => true | _ => false end.
Lemma re_match_eq r s : re_match r s = match filter at_end (re_run r s) with [] => None | (g, _) :: _ => Some g end.
Proof. reflexivity. Qed.
Lemma re_match_some r s g : re_match r s = Some g -> mt r s g.
Proof.
  rewrite re_match_eq. destruct (filter at_end (re_run r s)) as [|[g1 rest] l] eqn:E; [discriminate|]. intros H. injection H as <-.
  assert (I : In (g1, rest) (filter at_end (re_run r s))) by (rewrite E; now left).
  apply filter_In in I. destruct I as [I H]. destruct rest; [|discriminate H]. apply re_run_spec in I. destruct I as (t & -> & M). now rewrite app_nil_r.
Qed.
Lemma re_match_none r s g : mt r s g -> re_match r s <> None.
Proof.
  intros M. rewrite re_match_eq.
  assert (I : In (g, []) (filter at_end (re_run r s))).
  { apply filter_In. split; [|reflexivity]. apply re_run_spec. exists s. split; [symmetry; apply app_nil_r|exact M]. }
  destruct (filter at_end (re_run r s)) as [|[g1 rest] l]; [contradiction|discriminate].
Qed.

(** *** Classes *)
Lemma class_ok (f g : ascii -> bool) :
  forallb (fun n => Bool.eqb (f (ascii_of_nat n)) (g (ascii_of_nat n))) (seq 0 256) = true -> forall c, f c = g c.
Proof.
  intros H c. rewrite forallb_forall in H. rewrite <- (ascii_nat_embedding c). apply eqb_prop, H, in_seq.
  pose proof (nat_ascii_bounded c). lia.
Qed.
Lemma in_lit c l : existsb (Ascii.eqb c) l = true <-> In c l.
Proof.
  rewrite existsb_exists. split; [intros (x & I & E); apply Ascii.eqb_eq in E; now subst|]. intros I. exists c. split; [exact I|apply Ascii.eqb_refl].
Qed.
Lemma space_blank c : py_space c = true <-> blank c.
Proof.
  rewrite (class_ok py_space (fun c => existsb (N.eqb (N_of_ascii c)) [9; 10; 11; 12; 13; 28; 29; 30; 31; 32]) ltac:(vm_compute; reflexivity)).
  unfold blank. rewrite existsb_exists. split; [intros (x & I & E); apply N.eqb_eq in E; now rewrite E|]. intros I. exists (N_of_ascii c). split; [exact I|apply N.eqb_refl].
Qed.
Lemma upper_class c : in_range "A" "Z" c = true <-> In c (lit "ABCDEFGHIJKLMNOPQRSTUVWXYZ").
Proof. rewrite <- in_lit. now rewrite (class_ok (in_range "A" "Z") (fun c => existsb (Ascii.eqb c) (lit "ABCDEFGHIJKLMNOPQRSTUVWXYZ")) ltac:(vm_compute; reflexivity)). Qed.
Lemma hex_class c : in_range "0" "9" c || in_range "a" "f" c = true <-> In c (lit "0123456789abcdef").
Proof. rewrite <- in_lit. now rewrite (class_ok (fun c => in_range "0" "9" c || in_range "a" "f" c) (fun c => existsb (Ascii.eqb c) (lit "0123456789abcdef")) ltac:(vm_compute; reflexivity)). Qed.
Lemma ver_class c : in_range "0" "9" c || Ascii.eqb "." c = true <-> In c (lit "0123456789.").
Proof. rewrite <- in_lit. now rewrite (class_ok (fun c => in_range "0" "9" c || Ascii.eqb "." c) (fun c => existsb (Ascii.eqb c) (lit "0123456789.")) ltac:(vm_compute; reflexivity)). Qed.
Lemma zero_class c : Ascii.eqb "0" c = true <-> "0"%char = c.
Proof. apply Ascii.eqb_eq. Qed.

Lemma many_some p P t g : (forall c, p c = true <-> P c) -> (mt (RMany p) t g <-> some P t /\ g = []).
Proof.
  intros E. split.
  - intros M. inversion M; subst. repeat split; [assumption|]. eapply Forall_impl; [|eassumption]. intros c. apply E.
  - intros [[N F] ->]. constructor; [exact N|]. eapply Forall_impl; [|exact F]. intros c. apply E.
Qed.
Lemma many_dot t g : ~ In (byte 10) t -> (mt (RMany py_dot) t g <-> t <> [] /\ g = []).
Proof.
  intros H. split.
  - intros M. now inversion M; subst.
  - intros [N ->]. constructor; [exact N|]. apply Forall_forall. intros c I. unfold py_dot. destruct (Ascii.eqb_spec c "010") as [->|D]; [|reflexivity]. now apply H in I.
Qed.
Lemma seq_inv a b l g : mt (RSeq a b) l g <-> exists t u g1 g2, l = t ++ u /\ g = g1 ++ g2 /\ mt a t g1 /\ mt b u g2.
Proof. split; [intros M; inversion M; subst; repeat eexists; eassumption|]. intros (t & u & g1 & g2 & -> & -> & A & B). now constructor. Qed.
Lemma lit_inv s l g : mt (RLit s) l g <-> l = s /\ g = [].
Proof. split; [intros M; now inversion M|]. intros [-> ->]. constructor. Qed.
Lemma alt_inv a b l g : mt (RAlt a b) l g <-> mt a l g \/ mt b l g.
Proof. split; [intros M; inversion M; subst; auto|]. intros [H|H]; [now apply mt_left|now apply mt_right]. Qed.
Lemma group_inv a l g : mt (RGroup a) l g <-> exists g', g = l :: g' /\ mt a l g'.
Proof. split; [intros M; inversion M; subst; eauto|]. intros (g' & -> & M). now constructor. Qed.

Lemma line_sound l g : mt version_line_re l g -> exists lib v, g = [lib; v] /\ version_line l lib v.
Proof.
  unfold version_line_re. intros M.
  apply seq_inv in M. destruct M as (s0 & l1 & g1 & h1 & -> & -> & M & R). apply (many_some _ _ _ _ space_blank) in M. destruct M as [B0 ->].
  apply seq_inv in R. destruct R as (off & l2 & g2 & h2 & -> & -> & Mo & R).
  apply seq_inv in R. destruct R as (c & l3 & g3 & h3 & -> & -> & M & R). apply lit_inv in M. destruct M as [-> ->].
  apply seq_inv in R. destruct R as (s1 & l4 & g4 & h4 & -> & -> & M & R). apply (many_some _ _ _ _ space_blank) in M. destruct M as [B1 ->].
  apply seq_inv in R. destruct R as (c & l5 & g5 & h5 & -> & -> & M & R). apply lit_inv in M. destruct M as [-> ->].
  apply seq_inv in R. destruct R as (lib & l6 & g6 & h6 & -> & -> & M & R). apply group_inv in M. destruct M as (g' & -> & M). apply (many_some _ _ _ _ upper_class) in M. destruct M as [BL ->].
  apply seq_inv in R. destruct R as (c & l7 & g7 & h7 & -> & -> & M & R). apply lit_inv in M. destruct M as [-> ->].
  apply seq_inv in R. destruct R as (v & l8 & g8 & h8 & -> & -> & M & R). apply group_inv in M. destruct M as (g' & -> & M). apply (many_some _ _ _ _ ver_class) in M. destruct M as [BV ->].
  apply seq_inv in R. destruct R as (s2 & l9 & g9 & h9 & -> & -> & M & R). apply (many_some _ _ _ _ space_blank) in M. destruct M as [B2 ->].
  apply seq_inv in R. destruct R as (c & l10 & g10 & h10 & -> & -> & M & R). apply lit_inv in M. destruct M as [-> ->].
  apply seq_inv in R. destruct R as (fl & l11 & g11 & h11 & -> & -> & M & R). inversion M; subst. clear M. rename H0 into NF. clear H1.
  apply seq_inv in R. destruct R as (s3 & l12 & g12 & h12 & -> & -> & M & R). apply (many_some _ _ _ _ space_blank) in M. destruct M as [B3 ->].
  apply seq_inv in R. destruct R as (c & l13 & g13 & h13 & -> & -> & M & R). apply lit_inv in M. destruct M as [-> ->].
  inversion R; subst. clear R.
  assert (O : g2 = [] /\ (some (eq "0"%char) off \/ exists h, off = lit "0x" ++ h /\ some (fun c => In c (lit "0123456789abcdef")) h)).
  { apply alt_inv in Mo. destruct Mo as [M|M]; [apply (many_some _ _ _ _ zero_class) in M; destruct M as [M ->]; auto|].
    apply seq_inv in M. destruct M as (x & h & k1 & k2 & -> & -> & M1 & M2). apply lit_inv in M1. destruct M1 as [-> ->].
    apply (many_some _ _ _ _ hex_class) in M2. destruct M2 as [M2 ->]. split; [reflexivity|]. right. now exists h. }
  destruct O as [-> O]. exists lib, v. split; [reflexivity|].
  exists s0, off, s1, s2, fl, s3, l13. split; [reflexivity|]. tauto.
Qed.

Lemma line_complete l lib v : ~ In (byte 10) l -> version_line l lib v -> mt version_line_re l [lib; v].
Proof.
  intros N (s0 & off & s1 & s2 & fl & s3 & num & -> & B0 & B1 & B2 & B3 & O & BL & BV & NF & NN).
  repeat rewrite in_app_iff in N. unfold version_line_re.
  assert (S : forall a b t u g h k, mt a t g -> mt b u h -> k = g ++ h -> mt (RSeq a b) (t ++ u) k) by (intros; subst; now constructor).
  apply seq_inv. 
  exists s0. eexists. exists [], [lib; v]. split; [reflexivity|]. split; [reflexivity|]. split; [apply (many_some _ _ _ _ space_blank); auto|].
  apply (S _ _ _ _ [] [lib; v]); [|apply (S _ _ _ _ [] [lib; v])|reflexivity]; [|apply lit_inv; auto| |reflexivity].
  { apply alt_inv. destruct O as [O|(h & -> & O)]; [left; apply (many_some _ _ _ _ zero_class); auto|right].
    apply (S _ _ _ _ [] []); [apply lit_inv; auto|apply (many_some _ _ _ _ hex_class); auto|reflexivity]. }
  apply (S _ _ _ _ [] [lib; v]); [apply (many_some _ _ _ _ space_blank); auto| |reflexivity].
  apply (S _ _ _ _ [] [lib; v]); [apply lit_inv; auto| |reflexivity].
  apply (S _ _ _ _ [lib] [v]); [apply group_inv; exists []; split; [reflexivity|]; apply (many_some _ _ _ _ upper_class); auto| |reflexivity].
  apply (S _ _ _ _ [] [v]); [apply lit_inv; auto| |reflexivity].
  apply (S _ _ _ _ [v] []); [apply group_inv; exists []; split; [reflexivity|]; apply (many_some _ _ _ _ ver_class); auto| |reflexivity].
  apply (S _ _ _ _ [] []); [apply (many_some _ _ _ _ space_blank); auto| |reflexivity].
  apply (S _ _ _ _ [] []); [apply lit_inv; auto| |reflexivity].
  apply (S _ _ _ _ [] []); [apply many_dot; [tauto|auto]| |reflexivity].
  apply (S _ _ _ _ [] []); [apply (many_some _ _ _ _ space_blank); auto| |reflexivity].
  apply (S _ _ _ _ [] []); [apply lit_inv; auto| |reflexivity].
  apply many_dot; [tauto|auto].
Qed.

Definition starts_not (P : ascii -> Prop) (x : str) : Prop := exists c x', x = c :: x' /\ ~ P c.
Lemma cut_unique P : forall a b x y, Forall P a -> Forall P b -> a ++ x = b ++ y -> starts_not P x -> starts_not P y -> a = b /\ x = y.
Proof.
  induction a as [|c a IH]; intros b x y Fa Fb E Hx Hy; destruct b as [|d b]; cbn [app] in E; [auto|..].
  - exfalso. destruct Hx as (c & x' & -> & N). injection E as -> _. inversion Fb; contradiction.
  - exfalso. destruct Hy as (c' & y' & -> & N). injection E as -> _. inversion Fa; contradiction.
  - injection E as -> E. inversion Fa; inversion Fb; subst. destruct (IH b x y) as [-> ->]; auto.
Qed.

Lemma not_in_lit c l : existsb (Ascii.eqb c) l = false -> ~ In c l.
Proof. intros H I. apply in_lit in I. congruence. Qed.
Lemma not_blank c : py_space c = false -> ~ blank c.
Proof. intros H I. apply space_blank in I. congruence. Qed.
Lemma blank_not_in l : forallb (fun c => negb (py_space c)) l = true -> forall c, blank c -> ~ In c l.
Proof. intros H c B I. rewrite forallb_forall in H. apply H in I. apply space_blank in B. rewrite B in I. discriminate I. Qed.

Lemma offset_start off rest : (some (eq "0"%char) off \/ exists h, off = lit "0x" ++ h /\ some (fun c => In c (lit "0123456789abcdef")) h) ->
  starts_not blank (off ++ rest) /\ Forall (fun c => c <> ":"%char) off.
Proof.
  intros [[N F]|(h & -> & [N F])].
  - split.
    + destruct off as [|c off]; [congruence|]. inversion F; subst. exists "0"%char, (off ++ rest). split; [reflexivity|now apply not_blank].
    + eapply Forall_impl; [|exact F]. intros c <-. discriminate.
  - split; [eexists _, _; split; [reflexivity|now apply not_blank]|]. apply Forall_app. split; [repeat constructor; discriminate|].
    eapply Forall_impl; [|exact F]. intros c I ->. revert I. now apply not_in_lit.
Qed.

Lemma line_unique l lib v lib' v' : version_line l lib v -> version_line l lib' v' -> lib = lib' /\ v = v'.
Proof.
  intros (s0 & off & s1 & s2 & fl & s3 & num & -> & [_ B0] & [_ B1] & [N2 B2] & _ & O & [_ BL] & [_ BV] & _)
         (s0' & off' & s1' & s2' & fl' & s3' & num' & E & [_ B0'] & [_ B1'] & [N2' B2'] & _ & O' & [_ BL'] & [_ BV'] & _).
  apply (cut_unique blank) in E; [|assumption|assumption|now apply offset_start|now apply offset_start]. destruct E as [_ E].
  apply (cut_unique (fun c => c <> ":"%char)) in E; [|now apply (offset_start _ [])|now apply (offset_start _ [])|eexists _, _; split; [reflexivity|auto]..].
  destruct E as [_ E]. apply app_inv_head in E.
  apply (cut_unique blank) in E; [|assumption|assumption|eexists _, _; split; [reflexivity|now apply not_blank]..]. destruct E as [_ E]. apply app_inv_head in E.
  apply (cut_unique (fun c => In c (lit "ABCDEFGHIJKLMNOPQRSTUVWXYZ"))) in E; [|assumption|assumption|eexists _, _; split; [reflexivity|now apply not_in_lit]..].
  destruct E as [-> E]. split; [reflexivity|]. apply app_inv_head in E.
  apply (cut_unique (fun c => In c (lit "0123456789."))) in E; [apply E|assumption|assumption|..].
  - destruct s2 as [|c s2]; [congruence|]. inversion B2; subst. eexists _, _. split; [reflexivity|]. now apply blank_not_in.
  - destruct s2' as [|c s2']; [congruence|]. inversion B2'; subst. eexists _, _. split; [reflexivity|]. now apply blank_not_in.
Qed.

Lemma c103_line : forall (l lib v : str), ~ In (byte 10) l ->
  (re_match version_line_re l = Some [lib; v] <-> version_line l lib v).
Proof.
  intros l lib v N. split.
  - intros H. apply re_match_some, line_sound in H. destruct H as (lib' & v' & E & H). injection E as -> ->. exact H.
  - intros H. pose proof (re_match_none _ _ _ (line_complete _ _ _ N H)) as K.
    destruct (re_match version_line_re l) as [g|] eqn:E; [|congruence]. apply re_match_some, line_sound in E.
    destruct E as (lib' & v' & -> & H'). destruct (line_unique _ _ _ _ _ H H') as [-> ->]. reflexivity.
Qed.

(** ** The lines of a section *)
Fixpoint named (sec : bool) (ls : list str) : list (str * str) :=
  match ls with
  | [] => []
  | ln :: rest =>
      if negb (starts_with (lit " ") ln) then named (starts_with needs_header ln) rest
      else if negb sec then named sec rest
      else match re_match version_line_re ln with
           | Some [lib; t] => (lib, t) :: named sec rest
           | _ => named sec rest
           end
  end.

Definition upd (lib : str) (ver : list N) (d : versions) : versions :=
  match dict_get str_eqb lib d with
  | None => dict_set str_eqb lib ver d
  | Some e => if tuple_lt e ver then dict_set str_eqb lib ver d else d
  end.
Fixpoint process (es : list (str * str)) (d : versions) : result versions py_error :=
  match es with
  | [] => ROk d
  | (lib, t) :: es' => rbind (map_result py_int (split_on "." t)) (fun ver => process es' (upd lib ver d))
  end.

Lemma version_lines_process ls : forall sec d, version_lines sec ls d = process (named sec ls) d.
Proof.
  induction ls as [|ln ls IH]; intros sec d; [reflexivity|]. cbn [version_lines named].
  destruct (negb (starts_with (lit " ") ln)); [apply IH|]. destruct (negb sec); [apply IH|].
  destruct (re_match version_line_re ln) as [[|lib [|t [|x g]]]|]; try apply IH. cbn [process].
  destruct (map_result py_int (split_on "." t)) as [ver|]; cbn [rbind]; [apply IH|reflexivity].
Qed.

Lemma indented_code l : starts_with (lit " ") l = true <-> indented l.
Proof.
  unfold indented. destruct l as [|c l]; cbn [lit list_ascii_of_string starts_with].
  - split; [discriminate|intros (? & H); discriminate].
  - rewrite andb_true_r. split; [intros H; apply Ascii.eqb_eq in H; subst; eauto|]. intros (l' & H). injection H as -> ->. apply Ascii.eqb_refl.
Qed.
Lemma starts_with_app p : forall s, starts_with p s = true <-> exists r, s = p ++ r.
Proof.
  induction p as [|x p IH]; intros s; cbn [starts_with app]; [split; [intros _; now exists s|reflexivity]|].
  destruct s as [|y s]; [split; [discriminate|intros (r & H); discriminate]|].
  rewrite andb_true_iff, IH, Ascii.eqb_eq. split; [intros [-> (r & ->)]; now exists r|]. intros (r & H). injection H as -> ->. split; [reflexivity|now exists r].
Qed.

Definition inside (ls : list str) (lib t : str) : Prop :=
  exists between l after, ls = between ++ l :: after /\ Forall indented between /\ indented l /\ re_match version_line_re l = Some [lib; t].
Definition below (ls : list str) (lib t : str) : Prop :=
  exists before header tail, ls = before ++ header :: tail /\ (exists h, header = needs_header ++ h) /\ inside tail lib t.

Lemma header_not_indented h : ~ indented (needs_header ++ h).
Proof. intros (l & H). discriminate H. Qed.

Lemma inside_cons ln ls lib t : inside (ln :: ls) lib t <-> indented ln /\ (re_match version_line_re ln = Some [lib; t] \/ inside ls lib t).
Proof.
  split.
  - intros (b & l & a & E & Fb & Il & M). destruct b as [|x b]; injection E as <- ->; [tauto|]. inversion Fb; subst. split; [assumption|]. right. now exists b, l, a.
  - intros (I & [M|(b & l & a & -> & Fb & Il & M)]); [exists [], ln, ls|exists (ln :: b), l, a]; repeat split; auto.
Qed.
Lemma below_cons ln ls lib t : below (ln :: ls) lib t <-> ((exists h, ln = needs_header ++ h) /\ inside ls lib t) \/ below ls lib t.
Proof.
  split.
  - intros (b & h & tl & E & H & I). destruct b as [|x b]; injection E as <- ->; [tauto|]. right. now exists b, h, tl.
  - intros [[H I]|(b & h & tl & -> & H & I)]; [exists [], ln, ls|exists (ln :: b), h, tl]; auto.
Qed.

Lemma named_spec ls lib t : forall sec, In (lib, t) (named sec ls) <-> (sec = true /\ inside ls lib t) \/ below ls lib t.
Proof.
  induction ls as [|ln ls IH]; intros sec.
  - cbn [named In]. split; [tauto|]. intros [[_ (b & l & a & E & _)]|(b & h & tl & E & _)]; [now destruct b|now destruct b].
  - cbn [named]. rewrite inside_cons, below_cons.
    destruct (starts_with (lit " ") ln) eqn:E; cbn [negb].
    + apply indented_code in E. assert (NH : ~ exists h, ln = needs_header ++ h) by (intros (h & ->); now apply header_not_indented in E).
      destruct sec; cbn [negb].
      * transitivity (re_match version_line_re ln = Some [lib; t] \/ In (lib, t) (named true ls)); [|rewrite IH; tauto].
        destruct (re_match version_line_re ln) as [[|lib' [|t' [|x g]]]|]; cbn [In];
          try (split; [now right|intros [H|H]; [discriminate H|exact H]]).
        split; (intros [H|H]; [left; congruence|now right]).
      * rewrite IH. intuition congruence.
    + assert (NI : ~ indented ln) by (rewrite <- indented_code; congruence). rewrite IH, starts_with_app. tauto.
Qed.

(** ** Lines *)
Lemma lstrip_spec s : exists b, s = b ++ py_lstrip s /\ Forall blank b /\ forall c t, py_lstrip s = c :: t -> ~ blank c.
Proof.
  induction s as [|c s IH]; cbn [py_lstrip]; [exists []; repeat split; [constructor|discriminate]|].
  destruct (py_space c) eqn:E.
  - destruct IH as (b & H & F & N). exists (c :: b). split; [cbn [app]; congruence|]. split; [constructor; [now apply space_blank|exact F]|exact N].
  - exists []. repeat split; [constructor|]. intros d t H. injection H as <- <-. now apply not_blank.
Qed.
Lemma lstrip_blank b t : Forall blank b -> (forall c t', t = c :: t' -> ~ blank c) -> py_lstrip (b ++ t) = t.
Proof.
  intros F N. induction F as [|c b B F IH]; cbn [app].
  - destruct t as [|c t]; [reflexivity|]. cbn [py_lstrip]. destruct (py_space c) eqn:E; [|reflexivity]. apply space_blank in E. now destruct (N c t eq_refl).
  - cbn [py_lstrip]. apply space_blank in B. now rewrite B.
Qed.
Lemma strip_trimmed out t : trimmed out t <-> t = py_strip out.
Proof.
  unfold py_strip. split.
  - intros (b & a & -> & Fb & Fa & N1 & N2). destruct t as [|c t].
    + cbn [app]. assert (E : py_lstrip (b ++ a) = []).
      { rewrite <- (app_nil_r (b ++ a)). apply lstrip_blank; [now apply Forall_app|discriminate]. }
      now rewrite E.
    + rewrite (lstrip_blank b); [|exact Fb|intros d t' H; injection H as <- _; now apply (N1 c t)].
      rewrite rev_app_distr, lstrip_blank; [symmetry; apply rev_involutive|now apply Forall_rev|].
      intros d t' H. apply (N2 d (rev t')). rewrite <- (rev_involutive (c :: t)), H. reflexivity.
  - intros ->. destruct (lstrip_spec out) as (b & E & Fb & N1). destruct (lstrip_spec (rev (py_lstrip out))) as (a & E2 & Fa & N2).
    set (u := py_lstrip (rev (py_lstrip out))) in *. assert (E3 : py_lstrip out = rev u ++ rev a) by (rewrite <- rev_app_distr, <- E2; symmetry; apply rev_involutive).
    exists b, (rev a). split; [congruence|]. split; [exact Fb|]. split; [now apply Forall_rev|]. split.
    + intros c t' H. apply (N1 c (t' ++ rev a)). now rewrite E3, H.
    + intros c t' H. apply (N2 c (rev t')). rewrite <- (rev_involutive u), H, rev_app_distr. reflexivity.
Qed.
Lemma lines_split out ls : output_lines out ls <-> ls = split_on "010" (py_strip out).
Proof.
  split.
  - intros (t & T & N & E & F). apply strip_trimmed in T. rewrite <- T, E. symmetry. now apply split_of_separated.
  - intros ->. exists (py_strip out). split; [now apply strip_trimmed|]. split; [apply split_on_nonempty|]. split; [symmetry; apply split_separated|apply split_pieces].
Qed.

Definition asked (out : str) : list (str * str) := named false (split_on "010" (py_strip out)).
Lemma needs_asked out lib t : needs out lib t <-> In (lib, t) (asked out).
Proof.
  unfold asked. rewrite named_spec. set (ls0 := split_on "010" (py_strip out)).
  assert (NN : Forall (fun l => ~ In (byte 10) l) ls0) by apply split_pieces. split.
  - intros (ls & b & h & bt & l & a & L & E & H & Fb & Il & V). right. apply lines_split in L. fold ls0 in L. rewrite L in E.
    exists b, h, (bt ++ l :: a). split; [exact E|]. split; [exact H|]. exists bt, l, a. repeat split; auto. apply c103_line; [|exact V].
    rewrite E in NN. rewrite Forall_forall in NN. apply NN. rewrite !in_app_iff. right. right. apply in_app_iff. right. now left.
  - intros [[H _]|(b & h & tl & E & H & bt & l & a & -> & Fb & Il & M)]; [discriminate|].
    exists ls0, b, h, bt, l, a. split; [now apply lines_split|]. repeat split; auto. apply c103_line; [|exact M].
    rewrite E in NN. rewrite Forall_forall in NN. apply NN. rewrite !in_app_iff. right. right. apply in_app_iff. right. now left.
Qed.

(** ** Versions *)
Lemma digits_numeral s : forall acc, py_digits acc s = match numeral_from 10 acc s with Some x => ROk x | None => RErr ValueError end.
Proof.
  induction s as [|c s IH]; intros acc; [reflexivity|]. cbn [py_digits numeral_from]. rewrite (to_digit_below 10 c rdx10).
  destruct (digit_below 10 c); [apply IH|reflexivity].
Qed.
Lemma int_numeral s : py_int s = match numeral 10 s with Some x => ROk x | None => RErr ValueError end.
Proof. destruct s as [|c s]; [reflexivity|]. unfold py_int, numeral. apply digits_numeral. Qed.

Lemma map_int ts : (forall v, map_result py_int ts = ROk v <-> Forall2 (fun t x => numeral 10 t = Some x) ts v) /\
  forall e, map_result py_int ts = RErr e -> e = ValueError.
Proof.
  induction ts as [|t ts [IH1 IH2]]; cbn [map_result].
  - split; [|discriminate]. intros v. split; [intros H; injection H as <-; constructor|intros H; now inversion H].
  - rewrite int_numeral. destruct (numeral 10 t) as [x|] eqn:E; cbn [rbind].
    + destruct (map_result py_int ts) as [xs|e'] eqn:M; cbn [rbind].
      * split; [|discriminate]. intros v. split.
        -- intros H. injection H as <-. constructor; [exact E|now apply IH1].
        -- intros H. inversion H; subst. assert (E2 : ROk (E := py_error) xs = ROk l') by now apply IH1. congruence.
      * split; [|intros e H; injection H as <-; now apply IH2]. intros v. split; [discriminate|]. intros H. inversion H; subst.
        assert (E2 : RErr (A := list N) e' = ROk l') by now apply IH1. discriminate.
    + split; [|intros e H; now injection H as <-]. intros v. split; [discriminate|]. intros H. inversion H; congruence.
Qed.

Lemma numeral_no_dot t x : numeral 10 t = Some x -> ~ In "."%char t.
Proof.
  intros H I. unfold numeral in H. destruct t as [|c t]; [discriminate|]. apply numeral_from_chars in H. rewrite Forall_forall in H. now apply (H _ I).
Qed.
Lemma text_code t v : map_result py_int (split_on "." t) = ROk v <-> version_text t v.
Proof.
  destruct (map_int (split_on "." t)) as [H _]. rewrite H. clear H. split.
  - intros F. exists (split_on "." t). split; [apply split_on_nonempty|]. split; [symmetry; apply split_separated|exact F].
  - intros (ts & N & -> & F). rewrite split_of_separated; [exact F|exact N|].
    clear N. induction F as [|t x ts v H F IH]; constructor; [now apply (numeral_no_dot t x)|exact IH].
Qed.
Lemma text_error t e : map_result py_int (split_on "." t) = RErr e -> e = ValueError /\ forall v, ~ version_text t v.
Proof. intros H. destruct (map_int (split_on "." t)) as [_ K]. split; [now apply K|]. intros v V. apply text_code in V. congruence. Qed.
Lemma text_unique t v w : version_text t v -> version_text t w -> v = w.
Proof. intros V W. apply text_code in V. apply text_code in W. congruence. Qed.

Lemma lt_older a : forall b, tuple_lt a b = true <-> older a b.
Proof.
  induction a as [|x a IH]; intros [|y b]; cbn [tuple_lt].
  - split; [discriminate|intros H; inversion H].
  - split; [constructor|reflexivity].
  - split; [discriminate|intros H; inversion H].
  - destruct (N.eqb_spec x y) as [->|D].
    + rewrite IH. split; [apply older_later|]. intros H. inversion H; subst; [lia|assumption].
    + rewrite N.ltb_lt. split; [now constructor|]. intros H. inversion H; subst; [assumption|congruence].
Qed.
Lemma older_irrefl a : ~ older a a.
Proof. induction a as [|x a IH]; intros H; inversion H; subst; [lia|auto]. Qed.
Lemma older_trans a : forall b c, older a b -> older b c -> older a c.
Proof.
  induction a as [|x a IH]; intros b c H K; inversion H; subst; inversion K; subst; try (constructor; fail); try (apply older_number; lia).
  apply older_later. eauto.
Qed.
Lemma older_total a : forall b, older a b \/ a = b \/ older b a.
Proof.
  induction a as [|x a IH]; intros [|y b]; [auto|left; constructor|right; right; constructor|].
  destruct (N.lt_trichotomy x y) as [L|[->|L]]; [left; now constructor| |right; right; now constructor].
  destruct (IH b) as [H|[->|H]]; [left|right; left|right; right]; try reflexivity; now apply older_later.
Qed.

(** ** Dictionaries *)
Lemma eqb_spec a b : reflect (a = b) (str_eqb a b).
Proof. apply iff_reflect. symmetry. apply str_eqb_eq. Qed.
Lemma get_set {V : Type} k v (d : list (str * V)) k' : dict_get str_eqb k' (dict_set str_eqb k v d) = if str_eqb k' k then Some v else dict_get str_eqb k' d.
Proof.
  induction d as [|[a x] d IH]; cbn [dict_set dict_get].
  - reflexivity.
  - destruct (eqb_spec k a) as [->|D]; cbn [dict_get]; [destruct (str_eqb k' a); reflexivity|].
    rewrite IH. destruct (eqb_spec k' a) as [->|D']; [|reflexivity]. destruct (eqb_spec a k); [congruence|reflexivity].
Qed.
Lemma set_keys {V : Type} k v (d : list (str * V)) : forall x, In x (map fst (dict_set str_eqb k v d)) -> x = k \/ In x (map fst d).
Proof.
  induction d as [|[a y] d IH]; cbn [dict_set map fst In]; intros x; [intuition|].
  destruct (eqb_spec k a) as [->|D]; cbn [map fst In]; [intuition|]. intros [->|H]; [auto|]. apply IH in H. tauto.
Qed.
Lemma set_nodup {V : Type} k v (d : list (str * V)) : NoDup (map fst d) -> NoDup (map fst (dict_set str_eqb k v d)).
Proof.
  induction d as [|[a y] d IH]; cbn [dict_set map fst]; intros N; [repeat constructor; intros []|]. inversion N; subst.
  destruct (eqb_spec k a) as [->|D]; cbn [map fst]; [exact N|]. constructor; [|now apply IH]. intros I. apply set_keys in I. destruct I; congruence.
Qed.
Lemma get_in {V : Type} k v (d : list (str * V)) : dict_get str_eqb k d = Some v -> In (k, v) d.
Proof.
  induction d as [|[a y] d IH]; cbn [dict_get]; [discriminate|]. destruct (eqb_spec k a) as [->|D]; [intros H; injection H as ->; now left|]. intros H. right. auto.
Qed.
Lemma in_get {V : Type} k v (d : list (str * V)) : NoDup (map fst d) -> In (k, v) d -> dict_get str_eqb k d = Some v.
Proof.
  induction d as [|[a y] d IH]; cbn [dict_get map fst]; [contradiction|]. intros N [H|H]; inversion N; subst.
  - injection H as -> ->. now rewrite str_eqb_refl.
  - destruct (eqb_spec k a) as [->|D]; [|auto]. exfalso. apply H2. apply in_map_iff. now exists (a, v).
Qed.

Definition best (es : list (str * str)) (lib : str) (v : list N) : Prop :=
  (exists t, In (lib, t) es /\ version_text t v) /\ forall t w, In (lib, t) es -> version_text t w -> w = v \/ older w v.
Definition holds (es : list (str * str)) (d : versions) : Prop :=
  NoDup (map fst d) /\ (forall lib v, dict_get str_eqb lib d = Some v <-> best es lib v) /\ forall lib t, In (lib, t) es -> exists v, version_text t v.

Lemma best_unique es lib v w : best es lib v -> best es lib w -> v = w.
Proof.
  intros [(t & I & V) M] [(u & J & W) M']. destruct (M u w J W) as [->|O]; [reflexivity|]. destruct (M' t v I V) as [->|O']; [reflexivity|].
  destruct (older_irrefl v). now apply older_trans with w.
Qed.

Lemma best_any es lib t : (forall lib t, In (lib, t) es -> exists v, version_text t v) -> In (lib, t) es -> exists v, best es lib v.
Proof.
  intros A. revert t. induction es as [|[l1 t1] es IH]; intros t I; [contradiction|].
  assert (A1 : forall lib t, In (lib, t) es -> exists v, version_text t v) by (intros l2 t2 I2; apply (A l2); now right).
  specialize (IH A1).
  destruct (eqb_spec l1 lib) as [->|D].
  - destruct (A lib t1 (or_introl eq_refl)) as [v1 V1].
    destruct (in_dec (list_eq_dec ascii_dec) lib (map fst es)) as [J|J].
    + apply in_map_iff in J. destruct J as ([x t2] & Ex & J). cbn in Ex. subst x. destruct (IH t2 J) as [v' [(u & Iu & U) M]].
      destruct (older_total v1 v') as [O|[->|O]].
      * exists v'. split; [exists u; split; [now right|exact U]|]. intros t' w [J'|J'] W; [|now apply (M t')]. injection J' as <-. right. rewrite (text_unique t1 w v1); assumption.
      * exists v'. split; [exists u; split; [now right|exact U]|]. intros t' w [J'|J'] W; [|now apply (M t')]. injection J' as <-. left. now apply (text_unique t1).
      * exists v1. split; [exists t1; split; [now left|exact V1]|]. intros t' w [J'|J'] W; [injection J' as <-; left; now apply (text_unique t1)|].
        right. destruct (M t' w J' W) as [->|O']; [exact O|now apply older_trans with v'].
    + exists v1. split; [exists t1; split; [now left|exact V1]|]. intros t' w [J'|J'] W; [injection J' as <-; left; now apply (text_unique t1)|].
      exfalso. apply J. apply in_map_iff. now exists (lib, t').
  - destruct I as [I|I]; [congruence|]. destruct (IH t I) as [v' [(u & Iu & U) M]]. exists v'. split; [exists u; split; [now right|exact U]|].
    intros t' w [J'|J'] W; [congruence|now apply (M t')].
Qed.

Lemma upd_holds es d lib t ver : holds es d -> version_text t ver -> holds (es ++ [(lib, t)]) (upd lib ver d).
Proof.
  intros (N & G & A) V. unfold upd.
  assert (A' : forall lib' t', In (lib', t') (es ++ [(lib, t)]) -> exists v, version_text t' v).
  { intros l' t' I. apply in_app_iff in I. destruct I as [I|[I|[]]]; [now apply (A l')|]. injection I as <- <-. now exists ver. }
  assert (other : forall lib' v, lib' <> lib -> (best (es ++ [(lib, t)]) lib' v <-> best es lib' v)).
  { intros l' v D. assert (K : forall t', In (l', t') (es ++ [(lib, t)]) <-> In (l', t') es).
    { intros t'. rewrite in_app_iff. cbn [In]. intuition congruence. }
    unfold best. split; (intros [(u & I & U) M]; split; [exists u; split; [now apply K|exact U]|intros t' w I'; apply M; now apply K]). }
  destruct (dict_get str_eqb lib d) as [e|] eqn:E.
  - pose proof E as B. apply G in B. destruct (tuple_lt e ver) eqn:L.
    + apply lt_older in L. split; [now apply set_nodup|]. split; [|exact A']. intros l' v. rewrite get_set. destruct (eqb_spec l' lib) as [->|D]; [|rewrite G; symmetry; now apply other].
      assert (B' : best (es ++ [(lib, t)]) lib ver).
      { destruct B as [_ M]. split; [exists t; split; [apply in_app_iff; right; now left|exact V]|]. intros t' w I W. apply in_app_iff in I. destruct I as [I|[I|[]]].
        - right. destruct (M t' w I W) as [->|O]; [exact L|now apply older_trans with e].
        - injection I as <-. left. now apply (text_unique t). }
      split; [intros H; injection H as <-; exact B'|]. intros H. f_equal. now apply (best_unique (es ++ [(lib, t)]) lib).
    + assert (L' : ver = e \/ older ver e).
      { destruct (older_total ver e) as [O|[->|O]]; [auto|auto|]. apply lt_older in O. congruence. }
      split; [exact N|]. split; [|exact A']. intros l' v. destruct (eqb_spec l' lib) as [->|D]; [|rewrite G; symmetry; now apply other].
      assert (B' : best (es ++ [(lib, t)]) lib e).
      { destruct B as [(u & I & U) M]. split; [exists u; split; [apply in_app_iff; now left|exact U]|]. intros t' w J W. apply in_app_iff in J. destruct J as [J|[J|[]]]; [now apply (M t')|].
        injection J as <-. rewrite (text_unique t w ver); assumption. }
      rewrite E. split; [intros H; injection H as <-; exact B'|]. intros H. f_equal. now apply (best_unique (es ++ [(lib, t)]) lib).
  - split; [now apply set_nodup|]. split; [|exact A']. intros l' v. rewrite get_set. destruct (eqb_spec l' lib) as [->|D]; [|rewrite G; symmetry; now apply other].
    assert (NO : forall t', ~ In (lib, t') es).
    { intros t' I. destruct (best_any es lib t' A I) as [v' B]. apply G in B. congruence. }
    assert (B' : best (es ++ [(lib, t)]) lib ver).
    { split; [exists t; split; [apply in_app_iff; right; now left|exact V]|]. intros t' w I W. apply in_app_iff in I. destruct I as [I|[I|[]]]; [now apply NO in I|].
      injection I as <-. left. now apply (text_unique t). }
    split; [intros H; injection H as <-; exact B'|]. intros H. f_equal. now apply (best_unique (es ++ [(lib, t)]) lib).
Qed.

Lemma process_spec es : forall es0 d, holds es0 d ->
  match process es d with
  | ROk d' => holds (es0 ++ es) d'
  | RErr e => e = ValueError /\ exists lib t, In (lib, t) es /\ forall v, ~ version_text t v
  end.
Proof.
  induction es as [|[lib t] es IH]; intros es0 d H; cbn [process]; [now rewrite app_nil_r|].
  destruct (map_result py_int (split_on "." t)) as [ver|e] eqn:M; cbn [rbind].
  - apply text_code in M. specialize (IH _ _ (upd_holds es0 d lib t ver H M)). destruct (process es (upd lib ver d)) as [d'|e].
    + rewrite <- app_assoc in IH. exact IH.
    + destruct IH as [-> (l' & t' & I & B)]. split; [reflexivity|]. exists l', t'. split; [now right|exact B].
  - apply text_error in M. destruct M as [-> M]. split; [reflexivity|]. exists lib, t. split; [now left|exact M].
Qed.

(** ** The field Depends *)
Definition entry (deb : str) (v : list N) : str := deb ++ lit " (>= " ++ join (lit ".") (map fmt_dec v) ++ lit ")".
Lemma join_dots ts : join (lit ".") ts = separated "." ts.
Proof. induction ts as [|t [|u ts] IH]; [reflexivity..|]. cbn [join separated] in *. now rewrite IH. Qed.
Lemma join_parted sep ts : join sep ts = parted sep ts.
Proof. induction ts as [|t [|u ts] IH]; [reflexivity..|]. cbn [join parted] in *. now rewrite IH. Qed.

Definition deb_of (lib : str) : option str := dict_get str_eqb lib deb_mapping.
Lemma deb_of_some lib : In lib [lit "GLIBC"; lit "GCC"] <-> deb_of lib <> None.
Proof.
  unfold deb_of, deb_mapping. cbn [dict_get In]. destruct (eqb_spec lib (lit "GLIBC")) as [->|D]; [intuition discriminate|].
  destruct (eqb_spec lib (lit "GCC")) as [->|D']; [intuition discriminate|]. split; [intuition congruence|congruence].
Qed.

Lemma deps_spec d : match libver_to_deps d with
  | ROk l => Forall2 (fun x y => exists deb, deb_of (fst x) = Some deb /\ y = entry deb (snd x)) d l
  | RErr e => e = KeyError /\ exists lib v, In (lib, v) d /\ deb_of lib = None
  end.
Proof.
  unfold libver_to_deps. induction d as [|[lib v] d IH]; cbn [map_result]; [constructor|]. fold (deb_of lib).
  destruct (deb_of lib) as [deb|] eqn:E; cbn [rbind].
  - destruct (map_result _ d) as [l|e]; cbn [rbind]; [constructor; [now exists deb|exact IH]|].
    destruct IH as [-> (l' & v' & I & B)]. split; [reflexivity|]. exists l', v'. split; [now right|exact B].
  - split; [reflexivity|]. exists lib, v. split; [now left|exact E].
Qed.

Definition part (d : versions) (lib deb : str) : list str :=
  match dict_get str_eqb lib d with Some v => [entry deb v] | None => [] end.

Lemma sorted_parts d l : NoDup (map fst d) -> Forall2 (fun x y => exists deb, deb_of (fst x) = Some deb /\ y = entry deb (snd x)) d l ->
  py_sorted str_compare (l ++ []) = part d (lit "GLIBC") (lit "libc6") ++ part d (lit "GCC") (lit "libgcc1").
Proof.
  intros N F. rewrite app_nil_r.
  assert (K : Forall (fun x => fst x = lit "GLIBC" \/ fst x = lit "GCC") d).
  { clear N. induction F as [|[a v] y d l (deb & E & _) F IH]; constructor; [|exact IH]. cbn [fst] in *.
    assert (I : In a [lit "GLIBC"; lit "GCC"]) by (apply deb_of_some; congruence). cbn [In] in I. intuition. }
  destruct F as [|[a v] y d l (deb & E & ->) F]; [reflexivity|].
  inversion K as [|? ? K1 K2]; subst. cbn [fst snd map] in *. inversion N as [|? ? N1 N2]; subst.
  destruct F as [|[b w] z d l (deb' & E' & ->) F].
  - destruct K1 as [-> | ->]; injection E as <-; reflexivity.
  - inversion K2 as [|? ? K3 K4]; subst. cbn [fst snd map In] in *. inversion N2 as [|? ? N3 N4]; subst.
    destruct F as [|[c x] u d l _ F].
    + destruct K1 as [-> | ->]; destruct K3 as [-> | ->]; try (exfalso; apply N1; now left); injection E as <-; injection E' as <-; reflexivity.
    + exfalso. inversion K4 as [|? ? K5 _]; subst. cbn [fst map In] in *. destruct K1 as [-> | ->]; destruct K3 as [-> | ->]; destruct K5 as [-> | ->]; intuition.
Qed.

Lemma best_newest out lib v : best (asked out) lib v <-> newest out lib v.
Proof.
  unfold best, newest. split; (intros [(t & I & V) M]; split; [exists t; split; [now apply needs_asked|exact V]|intros u w J; apply M; now apply needs_asked]).
Qed.

Lemma best_exists es lib t d : holds es d -> In (lib, t) es -> exists v, best es lib v.
Proof. intros (_ & _ & A) I. now apply (best_any es lib t). Qed.

Lemma part_requirement out d lib deb : holds (asked out) d -> requirement out lib deb (part d lib deb).
Proof.
  intros H. pose proof H as (N & G & A). unfold part. destruct (dict_get str_eqb lib d) as [v|] eqn:E.
  - right. exists v, (map fmt_dec v). split; [now apply best_newest, G|]. split; [apply (Forall2_usual 10 v rdx10)|]. unfold entry. now rewrite join_dots.
  - left. split; [|reflexivity]. intros t I. apply needs_asked in I. destruct (best_exists _ _ _ _ H I) as [v B]. apply G in B. congruence.
Qed.

Lemma requirement_unique out lib deb c c' : requirement out lib deb c -> requirement out lib deb c' -> c = c'.
Proof.
  intros [[H ->]|(v & ts & B & U & ->)] [[H' ->]|(v' & ts' & B' & U' & ->)]; [reflexivity|..].
  - destruct B' as [(t & I & _) _]. now apply H in I.
  - destruct B as [(t & I & _) _]. now apply H' in I.
  - apply best_newest in B. apply best_newest in B'. rewrite (best_unique _ _ _ _ B' B) in U'. now rewrite (Pf_Whole.usual_list 10 v ltac:(lia) ts ts' U U').
Qed.
Lemma dependencies_unique out deps deps' : dependencies out deps -> dependencies out deps' -> deps = deps'.
Proof.
  intros (_ & c & g & C & G & ->) (_ & c' & g' & C' & G' & ->). now rewrite (requirement_unique _ _ _ _ _ C C'), (requirement_unique _ _ _ _ _ G G').
Qed.

Lemma depends_cases out : match deb_depends out with
  | ROk deps => dependencies out deps
  | RErr ValueError => exists lib t, needs out lib t /\ forall v, ~ version_text t v
  | RErr KeyError => (forall lib t, needs out lib t -> exists v, version_text t v) /\ exists lib t, needs out lib t /\ ~ In lib [lit "GLIBC"; lit "GCC"]
  | RErr StructError => False
  end.
Proof.
  unfold deb_depends, get_elf_versions. rewrite version_lines_process. fold (asked out).
  assert (H0 : holds [] []).
  { split; [constructor|]. split; [|intros ? ? []]. intros lib v. split; [discriminate|]. intros [(t & [] & _) _]. }
  pose proof (process_spec (asked out) [] [] H0) as P. destruct (process (asked out) []) as [d|e]; cbn [rbind].
  - cbn [app] in P. pose proof (deps_spec d) as D. pose proof P as (N & G & A).
    assert (A' : forall lib t, needs out lib t -> exists v, version_text t v) by (intros lib t I; apply needs_asked in I; now apply (A lib)).
    destruct (libver_to_deps d) as [l|e]; cbn [rbind].
    + rewrite (sorted_parts d l N D), join_parted. split.
      * intros lib t I. split; [|now apply (A' lib)]. apply needs_asked in I. destruct (best_exists _ _ _ _ P I) as [v B]. apply G, get_in in B.
        apply deb_of_some. clear - D B. induction D as [|x y d l (deb & E & _) D IH]; [contradiction|]. destruct B as [->|B]; [cbn [fst] in E; congruence|auto].
      * exists (part d (lit "GLIBC") (lit "libc6")), (part d (lit "GCC") (lit "libgcc1")). split; [now apply part_requirement|]. split; [now apply part_requirement|reflexivity].
    + destruct D as [-> (lib & v & I & B)]. split; [exact A'|]. apply in_get in I; [|exact N]. apply G in I. destruct I as [(t & I & _) _].
      exists lib, t. split; [now apply needs_asked|]. intros K. apply deb_of_some in K. congruence.
  - destruct P as [-> (lib & t & I & B)]. exists lib, t. split; [now apply needs_asked|exact B].
Qed.

Lemma c103_depends : forall (out deps : str), deb_depends out = ROk deps <-> dependencies out deps.
Proof.
  intros out deps. pose proof (depends_cases out) as C. split.
  - intros E. now rewrite E in C.
  - intros D. destruct (deb_depends out) as [deps'|[]].
    + now rewrite (dependencies_unique _ _ _ C D).
    + destruct C as (lib & t & I & B). apply D in I. destruct I as [_ [v V]]. now apply B in V.
    + destruct C as (_ & lib & t & I & B). apply D in I. now destruct B.
    + contradiction.
Qed.

Lemma c103_errors : forall (out : str),
  (deb_depends out = RErr ValueError <-> exists lib t, needs out lib t /\ forall v, ~ version_text t v) /\
  (deb_depends out = RErr KeyError <->
     (forall lib t, needs out lib t -> exists v, version_text t v) /\
     exists lib t, needs out lib t /\ ~ In lib [lit "GLIBC"; lit "GCC"]).
Proof.
  intros out. pose proof (depends_cases out) as C. split; split.
  - intros E. now rewrite E in C.
  - intros (lib & t & I & B). destruct (deb_depends out) as [deps|[]]; [|reflexivity| |contradiction].
    + apply C in I. destruct I as [_ [v V]]. now apply B in V.
    + destruct C as [C _]. apply C in I. destruct I as [v V]. now apply B in V.
  - intros E. now rewrite E in C.
  - intros (A & lib & t & I & B). destruct (deb_depends out) as [deps|[]]; [| |reflexivity|contradiction].
    + apply C in I. now destruct B.
    + destruct C as (l' & t' & I' & B'). apply A in I'. destruct I' as [v V]. now apply B' in V.
Qed.

Lemma newest_same out out' lib v : (forall lib t, needs out lib t <-> needs out' lib t) -> newest out lib v -> newest out' lib v.
Proof. intros E [(t & I & V) M]. split; [exists t; split; [now apply E|exact V]|]. intros u w J. apply M. now apply E. Qed.
Lemma requirement_same out out' lib deb c : (forall lib t, needs out lib t <-> needs out' lib t) -> requirement out lib deb c -> requirement out' lib deb c.
Proof.
  intros E [[H ->]|(v & ts & B & U)]; [left; split; [|reflexivity]; intros t I; apply E in I; now apply H in I|right].
  exists v, ts. split; [now apply (newest_same out)|exact U].
Qed.

Lemma c103_order : forall (out out' : str),
  (forall lib t, needs out lib t <-> needs out' lib t) -> deb_depends out = deb_depends out'.
Proof.
  intros out out' E. pose proof (depends_cases out) as C. destruct (deb_depends out) as [deps|[]]; symmetry.
  - apply c103_depends. destruct C as (A & c & g & K & G & ->). split; [intros lib t I; apply A with (lib := lib); now apply E|].
    exists c, g. split; [now apply (requirement_same out)|]. split; [now apply (requirement_same out)|reflexivity].
  - apply c103_errors. destruct C as (lib & t & I & B). exists lib, t. split; [now apply E|exact B].
  - apply c103_errors. destruct C as (A & lib & t & I & B). split; [intros l' t' I'; apply (A l'); now apply E|]. exists lib, t. split; [now apply E|exact B].
  - contradiction.
Qed.

(** ** The files *)
Lemma feed_all fuel : forall fed f, (List.length f < fuel)%nat -> md5_feed fuel fed f = fed ++ f.
Proof.
  induction fuel as [|fuel IH]; intros fed f L; [lia|]. cbn [md5_feed]. unfold py_read.
  destruct f as [|c f]; [cbn [firstn]; now rewrite app_nil_r|].
  assert (E : exists l, firstn 1024 (c :: f) = c :: l) by (eexists; reflexivity). destruct E as [l E].
  pose proof (firstn_skipn 1024 (c :: f)) as FS. pose proof (skipn_length 1024 (c :: f)) as SL.
  rewrite E in *. rewrite IH; [rewrite <- app_assoc; congruence|]. rewrite SL. cbn [List.length] in *. lia.
Qed.

Definition doc (name : string) : str := lit "usr/share/doc/ripcalc/" ++ lit name.
Lemma debianize_eq (T : Tools) elf : debianize elf =
  rbind (get_elf_machine elf) (fun deb_arch =>
  rbind (deb_depends (readelf (strip elf))) (fun depends =>
  let rev := rstrip_newlines git_count in
  let files := [(lit "usr/bin/ripcalc", strip elf); (lit "usr/share/doc/ripcalc/changelog.gz", gzip (fake_changelog rev)); (lit "usr/share/doc/ripcalc/copyright", make_copyright)] in
  ROk {| deb_name := lit "ripcalc" ++ lit "_" ++ rev ++ lit "_" ++ deb_arch ++ lit ".deb";
         control := control_file rev deb_arch depends (size files / 1024);
         md5sums := md5sums_file (map (fun x => (fst x, md5 (snd x))) files);
         data := files |})).
Proof.
  unfold debianize. destruct (get_elf_machine elf) as [a|]; cbn [rbind]; [|reflexivity].
  unfold checksums. cbn [fold_left]. rewrite feed_all by lia. cbn [app].
  destruct (deb_depends (readelf (strip elf))) as [dp|]; cbn [rbind]; [|reflexivity].
  f_equal. f_equal.
  - f_equal. f_equal. unfold size. cbn [flat_map snd]. rewrite !app_length. cbn [List.length]. lia.
Qed.

Lemma c104_data : forall (T : Tools) (elf : str) (p : package),
  debianize elf = ROk p ->
  exists changelog copyright,
    data p = [(lit "usr/bin/ripcalc", strip elf); (lit "usr/share/doc/ripcalc/changelog.gz", gzip changelog); (lit "usr/share/doc/ripcalc/copyright", copyright)].
Proof.
  intros T elf p. rewrite debianize_eq. destruct (get_elf_machine elf); [|discriminate]. cbn [rbind]. destruct (deb_depends _); [|discriminate]. cbn [rbind].
  cbv zeta. intros H. injection H as <-. eexists _, _. reflexivity.
Qed.

Lemma c104_succeeds : forall (T : Tools) (elf : str),
  (exists p, debianize elf = ROk p) <-> (exists name, architecture elf name) /\ (exists deps, dependencies (readelf (strip elf)) deps).
Proof.
  intros T elf. rewrite debianize_eq. split.
  - intros (p & H). destruct (get_elf_machine elf) as [a|] eqn:A; [|discriminate]. cbn [rbind] in H. destruct (deb_depends _) as [d|] eqn:D in H; [|discriminate].
    split; [exists a; now apply c102_architecture|exists d; now apply c103_depends].
  - intros [(a & A) (d & D)]. apply c102_architecture in A. apply c103_depends in D. rewrite A. cbn [rbind]. rewrite D. cbn [rbind]. eexists. reflexivity.
Qed.

Lemma rstrip_one rev : decimal rev -> rstrip_newlines (rev ++ [byte 10]) = rev.
Proof.
  intros [N F]. unfold rstrip_newlines. rewrite rev_app_distr. cbn [List.rev app drop_newlines].
  change (Ascii.eqb (byte 10) "010") with true. cbv iota.
  destruct rev as [|c r _] using rev_ind; [congruence|]. rewrite rev_app_distr. cbn [List.rev app drop_newlines].
  apply Forall_app in F. destruct F as [_ F]. inversion F as [|? ? I _]; subst.
  destruct (Ascii.eqb_spec c "010") as [->|D]; [exfalso; revert I; now apply not_in_lit|]. cbn [List.rev]. now rewrite rev_involutive.
Qed.

Lemma decimal_line rev : decimal rev -> ~ In (byte 10) rev.
Proof. intros [_ F] I. rewrite Forall_forall in F. apply F in I. revert I. now apply not_in_lit. Qed.
Lemma usual_line x t : usual 10 x t -> ~ In (byte 10) t.
Proof.
  intros (H & _ & _) I. unfold numeral in H. destruct t as [|c t]; [discriminate|]. apply numeral_from_chars in H. rewrite Forall_forall in H. now apply (H _ I).
Qed.
Lemma name_line f name : architecture f name -> ~ In (byte 10) name.
Proof.
  intros (o & m0 & m1 & n & _ & _ & I). unfold debian_names in I. cbn [In] in I.
  repeat destruct I as [I|I]; try (injection I as <- <-; now apply not_in_lit). contradiction.
Qed.
Lemma requirement_line out lib deb c : ~ In (byte 10) deb -> requirement out lib deb c -> Forall (fun e => ~ In (byte 10) e) c.
Proof.
  intros N [[_ ->]|(v & ts & _ & U & ->)]; [constructor|]. constructor; [|constructor].
  rewrite !in_app_iff. intros [I|[I|[I|I]]]; [now apply N in I|revert I; now apply not_in_lit| |revert I; now apply not_in_lit].
  revert I. clear N. induction U as [|x t v ts H U IH]; [intros []|]. cbn [separated]. destruct ts as [|t' ts]; [now apply (usual_line x)|].
  intros I. apply in_app_iff in I. destruct I as [I|[I|I]]; [now apply (usual_line x t) in I|discriminate I|now apply IH].
Qed.
Lemma deps_line out deps : dependencies out deps -> ~ In (byte 10) deps.
Proof.
  intros (_ & c & g & C & G & ->). apply requirement_line in C; [|now apply not_in_lit]. apply requirement_line in G; [|now apply not_in_lit].
  assert (F : Forall (fun e => ~ In (byte 10) e) (c ++ g)) by now apply Forall_app.
  revert F. generalize (c ++ g). intros l F. induction F as [|x l N F IH]; [intros []|]. cbn [parted]. destruct l as [|y l]; [exact N|].
  rewrite !in_app_iff. intros [I|[I|I]]; [now apply N in I|revert I; now apply not_in_lit|now apply IH].
Qed.

Ltac not_line := cbn; intuition discriminate.
Lemma not_in_app c (a b : str) : ~ In c a -> ~ In c b -> ~ In c (a ++ b).
Proof. rewrite in_app_iff. tauto. Qed.

Lemma field_at ls : Forall (fun l => ~ In (byte 10) l) ls -> forall i key v, nth_error ls i = Some (key ++ lit ": " ++ v) -> ~ In (byte 10) v ->
  Forall (fun l => forall v', l <> key ++ lit ": " ++ v') (firstn i ls ++ skipn (S i) ls) -> field (text_of_lines ls) key v.
Proof.
  intros NL i key v E Nv F. exists (firstn i ls), (skipn (S i) ls). apply nth_error_split in E. destruct E as (b & e & E & <-). rewrite E in F |- *.
  assert (B1 : firstn (List.length b) (b ++ (key ++ lit ": " ++ v) :: e) = b) by (rewrite firstn_app, Nat.sub_diag, firstn_all; cbn [firstn]; apply app_nil_r).
  assert (B2 : skipn (S (List.length b)) (b ++ (key ++ lit ": " ++ v) :: e) = e) by (clear; induction b as [|x b IH]; [reflexivity|exact IH]).
  rewrite B1, B2 in *. split; [reflexivity|]. split; [exact Nv|]. rewrite E in NL. apply Forall_app in NL. destruct NL as [NL1 NL2]. inversion NL2; subst.
  rewrite Forall_forall in *. intros l I. split; [|now apply F]. apply in_app_iff in I. destruct I; auto.
Qed.

Lemma c104_control : forall (T : Tools) (elf revision : str) (p : package),
  git_count = revision ++ [byte 10] -> decimal revision -> debianize elf = ROk p ->
  exists name deps kib, architecture elf name /\ dependencies (readelf (strip elf)) deps /\ usual 10 (size (data p) / 1024) kib /\
    deb_name p = lit "ripcalc_" ++ revision ++ lit "_" ++ name ++ lit ".deb" /\
    field (control p) (lit "Package") (lit "ripcalc") /\ field (control p) (lit "Version") revision /\
    field (control p) (lit "Architecture") name /\ field (control p) (lit "Depends") deps /\ field (control p) (lit "Installed-Size") kib.
Proof.
  intros T elf rev p G Dr. rewrite debianize_eq. destruct (get_elf_machine elf) as [a|] eqn:A; [|discriminate]. cbn [rbind].
  destruct (deb_depends _) as [d|] eqn:D; [|discriminate]. cbn [rbind]. cbv zeta. rewrite G, (rstrip_one rev Dr). intros H. injection H as <-. cbn [data deb_name control].
  apply c102_architecture in A. apply c103_depends in D.
  set (k := size _ / 1024). exists a, d, (fmt_dec k). split; [exact A|]. split; [exact D|]. split; [apply Pf_Whole.usual_dec|]. split; [reflexivity|].
  pose proof (decimal_line rev Dr) as L1. pose proof (name_line _ _ A) as L2. pose proof (deps_line _ _ D) as L3. pose proof (usual_line k _ (Pf_Whole.usual_dec k)) as L4.
  clear - L1 L2 L3 L4. unfold control_file. generalize dependent (fmt_dec k). intros kib L4.
  change py_lines with text_of_lines.
  set (ls := [_; _; _; _; _; _; _; _; _; _; _; _]).
  assert (NL : Forall (fun l => ~ In (byte 10) l) ls).
  { repeat constructor; repeat apply not_in_app; try assumption; now apply not_in_lit. }
  pose proof (field_at ls NL) as K.
  split; [|split; [|split; [|split]]].
  - apply (K 0%nat); [reflexivity|now apply not_in_lit|]. repeat constructor; intros v' E; discriminate E.
  - apply (K 2%nat); [reflexivity|assumption|]. repeat constructor; intros v' E; discriminate E.
  - apply (K 3%nat); [reflexivity|assumption|]. repeat constructor; intros v' E; discriminate E.
  - apply (K 6%nat); [reflexivity|assumption|]. repeat constructor; intros v' E; discriminate E.
  - apply (K 5%nat); [reflexivity|assumption|]. repeat constructor; intros v' E; discriminate E.
Qed.

Lemma copyright_fields : field make_copyright (lit "Upstream-Name") (lit "ripcalc") /\ field make_copyright (lit "Files") (lit "*") /\
    field make_copyright (lit "Copyright") (lit "2021 Ondřej Hošek <ondra.hosek@gmail.com>") /\ field make_copyright (lit "License") (lit "CC0-1.0").
Proof.
  unfold make_copyright. change py_lines with text_of_lines. set (ls := [_; _; _; _; _; _; _; _]).
  assert (NL : Forall (fun l => ~ In (byte 10) l) ls) by (repeat constructor; now apply not_in_lit).
  pose proof (field_at ls NL) as K.
  split; [apply (K 1%nat)|split; [apply (K 5%nat)|split; [apply (K 6%nat)|apply (K 7%nat)]]]; try reflexivity; try (now apply not_in_lit);
    repeat constructor; intros v' E; discriminate E.
Qed.

Lemma c104_documents : forall (T : Tools) (elf revision date : str) (p : package),
  git_count = revision ++ [byte 10] -> decimal revision -> mail_date = date ++ [byte 10] -> debianize elf = ROk p ->
  exists changes copyright, Forall (fun l => l = [] \/ exists l', l = lit "  * " ++ l') changes /\
    In (lit "usr/share/doc/ripcalc/changelog.gz",
        gzip (text_of_lines ((lit "ripcalc (" ++ revision ++ lit ") unstable; urgency=medium") :: changes ++ [lit " -- Ondřej Hošek <ondra.hosek@gmail.com>  " ++ date; []]))) (data p) /\
    In (lit "usr/share/doc/ripcalc/copyright", copyright) (data p) /\
    field copyright (lit "Upstream-Name") (lit "ripcalc") /\ field copyright (lit "Files") (lit "*") /\
    field copyright (lit "Copyright") (lit "2021 Ondřej Hošek <ondra.hosek@gmail.com>") /\ field copyright (lit "License") (lit "CC0-1.0").
Proof.
  intros T elf rev date p G Dr Ed. rewrite debianize_eq. destruct (get_elf_machine elf) as [a|] eqn:A; [|discriminate]. cbn [rbind].
  destruct (deb_depends _) as [d|] eqn:D; [|discriminate]. cbn [rbind]. cbv zeta. rewrite G, (rstrip_one rev Dr).
  match goal with |- ROk ?q = ROk p -> _ => intros H; assert (EQ : p = q) by congruence; rewrite EQ; clear H EQ p end. cbn [data].
  exists [[]; lit "  * Just read the git log, no need to maintain a second changelog."; []], make_copyright.
  split; [constructor; [now left|constructor; [right; eexists; reflexivity|constructor; [now left|constructor]]]|]. split.
  - right. left. f_equal. f_equal. unfold fake_changelog. rewrite Ed. unfold py_lines, text_of_lines. cbn [flat_map app]. rewrite <- !app_assoc. reflexivity.
  - split; [right; right; now left|exact copyright_fields].
Qed.

(** *** The checksums *)
Lemma compare_refl a : str_compare a a = Eq.
Proof. induction a as [|c a IH]; cbn [str_compare]; [reflexivity|]. now rewrite N.compare_refl. Qed.
Lemma code_inj c d : N_of_ascii c = N_of_ascii d -> c = d.
Proof. intros E. rewrite <- (ascii_N_embedding c), <- (ascii_N_embedding d). now rewrite E. Qed.
Lemma compare_eq a : forall b, str_compare a b = Eq <-> a = b.
Proof.
  induction a as [|c a IH]; intros [|d b]; cbn [str_compare]; try (split; [discriminate|discriminate]); [split; reflexivity|].
  destruct (N.compare_spec (N_of_ascii c) (N_of_ascii d)) as [E|L|L].
  - apply code_inj in E. subst. rewrite IH. split; [now intros ->|intros H; now injection H].
  - split; [discriminate|]. intros H. injection H as -> _. lia.
  - split; [discriminate|]. intros H. injection H as -> _. lia.
Qed.
Lemma compare_lt a : forall b, str_compare a b = Lt <-> before_in_alphabet a b.
Proof.
  induction a as [|c a IH]; intros [|d b]; cbn [str_compare].
  - split; [discriminate|intros H; inversion H].
  - split; [constructor|reflexivity].
  - split; [discriminate|intros H; inversion H].
  - destruct (N.compare_spec (N_of_ascii c) (N_of_ascii d)) as [E|L|L].
    + apply code_inj in E. subst. rewrite IH. split; [apply before_later|]. intros H. inversion H; subst; [lia|assumption].
    + split; [now constructor|reflexivity].
    + split; [discriminate|]. intros H. inversion H; subst; lia.
Qed.
Lemma compare_opp a : forall b, str_compare b a = CompOpp (str_compare a b).
Proof.
  induction a as [|c a IH]; intros [|d b]; cbn [str_compare]; [reflexivity..|]. rewrite (N.compare_antisym (N_of_ascii c)).
  destruct (N_of_ascii c ?= N_of_ascii d); cbn [CompOpp]; [apply IH|reflexivity..].
Qed.
Lemma alphabet_trans a : forall b c, before_in_alphabet a b -> before_in_alphabet b c -> before_in_alphabet a c.
Proof.
  induction a as [|x a IH]; intros b c H K; inversion H; subst; inversion K; subst; try (constructor; lia); try (constructor; fail).
  apply before_later. eauto.
Qed.

Definition le_pair (a b : str * str) : Prop :=
  a = b \/ snd a = snd b /\ before_in_alphabet (fst a) (fst b) \/ before_in_alphabet (snd a) (snd b).
Lemma pair_le a b : pair_compare a b <> Gt -> le_pair a b.
Proof.
  unfold pair_compare, le_pair. destruct a as [p m]; destruct b as [q n]; cbn [fst snd]. destruct (str_compare m n) eqn:E; intros H.
  - apply compare_eq in E. subst. destruct (str_compare p q) eqn:E2; [apply compare_eq in E2; subst; auto|apply compare_lt in E2; auto|congruence].
  - apply compare_lt in E. auto.
  - congruence.
Qed.
Lemma pair_opp a b : pair_compare b a = CompOpp (pair_compare a b).
Proof. unfold pair_compare. rewrite (compare_opp (snd a)). destruct (str_compare (snd a) (snd b)); cbn [CompOpp]; [apply compare_opp|reflexivity..]. Qed.
Lemma le_pair_trans a b c : le_pair a b -> le_pair b c -> le_pair a c.
Proof.
  unfold le_pair. intros [->|[[E H]|H]] [<-|[[E' H']|H']]; auto.
  - right. left. split; [congruence|now apply alphabet_trans with (fst b)].
  - right. right. now rewrite E.
  - right. right. now rewrite <- E'.
  - right. right. now apply alphabet_trans with (snd b).
Qed.

Lemma sorted_strong l : NoDup l -> Sorted (fun x y => pair_compare x y <> Gt) l ->
  StronglySorted (fun a b => snd a = snd b /\ before_in_alphabet (fst a) (fst b) \/ before_in_alphabet (snd a) (snd b)) l.
Proof.
  intros N S. assert (SS : StronglySorted le_pair l).
  { apply Sorted_StronglySorted; [exact le_pair_trans|]. clear N. induction S as [|a l S IH H]; constructor; [exact IH|]. destruct H; constructor. now apply pair_le. }
  clear S. induction SS as [|a l SS IH F]; constructor; inversion N; subst; [now apply IH|].
  rewrite Forall_forall in *. intros b I. destruct (F b I) as [->|H]; [contradiction|exact H].
Qed.

Lemma c104_md5sums : forall (T : Tools) (elf : str) (p : package),
  debianize elf = ROk p ->
  exists files, Permutation files (data p) /\
    md5sums p = text_of_lines (map (fun file => md5 (snd file) ++ lit "  " ++ fst file) files) /\
    StronglySorted (fun a b => md5 (snd a) = md5 (snd b) /\ before_in_alphabet (fst a) (fst b) \/ before_in_alphabet (md5 (snd a)) (md5 (snd b))) files.
Proof.
  intros T elf p. rewrite debianize_eq. destruct (get_elf_machine elf); [|discriminate]. cbn [rbind]. destruct (deb_depends _); [|discriminate]. cbn [rbind].
  cbv zeta. set (files := [_; _; _]).
  match goal with |- ROk ?q = ROk p -> _ => intros H; assert (EQ : p = q) by congruence; rewrite EQ; clear H EQ p end. cbn [data md5sums].
  assert (ND : NoDup (map fst files)).
  { unfold files. cbn [map fst]. repeat constructor; cbn [In]; intuition discriminate. }
  unfold md5sums_file. set (sums := map (fun x => (fst x, md5 (snd x))) files).
  pose proof (isort_by_perm pair_compare sums) as P. pose proof (isort_by_sorted pair_compare (fun a b => pair_opp a b) sums) as S.
  unfold py_sorted. set (l := isort_by pair_compare sums) in *.
  destruct (Permutation_map_inv _ _ P) as (fs & E & Pf). exists fs. split; [now symmetry|]. rewrite E. split.
  - change py_lines with text_of_lines. rewrite map_map. f_equal.
  - assert (NS : NoDup l).
    { rewrite E. apply (Permutation_map fst) in Pf. apply (Permutation_NoDup Pf) in ND. clear - ND.
      induction fs as [|x fs IH]; cbn [map] in *; constructor; inversion ND; subst; [|now apply IH]. intros I. apply in_map_iff in I. destruct I as (y & Ey & I). apply H1. apply in_map_iff. exists y. split; [congruence|exact I]. }
    apply (sorted_strong l NS) in S. rewrite E in S. clear - S. induction fs as [|x fs IH]; constructor; inversion S; subst; [now apply IH|].
    rewrite Forall_forall in *. intros y I. apply (H2 (fst y, md5 (snd y))). apply in_map_iff. now exists y.
Qed.
