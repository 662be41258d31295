(** * Pf_Process: proofs for P_Process *)
From Verif Require Import RustBase Addr BitManip Net Parse Console ShowNet Main Messages Process Spec SpecText SpecIO SpecShow SpecMain SpecProcess Demo
  TextFacts Utf8Facts Bits Weave Bytes Laws NetFacts SetFacts Family Pf_Netspec Pf_Main.
From Coq Require Import ZifyBool ZifyNat ZifyN.
Ltac Zify.zify_post_hook ::= idtac.

(** ** C69 *)
Lemma c69_colour_test : forall (R : Rust) (prog : str) (rest : list str),
  does (prog :: lit "--color-test" :: rest) (map (fun p => Frag (snd p) (fill 20 (fst p))) palette) 0%Z.
Proof.
  intros R prog rest T. change (do_main (prog :: lit "--color-test" :: rest)) with (color_test ;;; io_ret 0%Z).
  unfold color_test, write_in_color. destruct colors_enabled; reflexivity.
Qed.

Lemma c69_palette : forall c : color,
  (exists name, In (name, c) palette) /\
  (forall d, pen_of c = pen_of d -> c = d) /\
  count_occ pen_dec (map (fun p => pen_of (snd p)) palette) (pen_of c) = 1%nat.
Proof.
  intros c. split; [|split].
  - destruct c; eexists; unfold palette; cbn [In];
      repeat (first [left; reflexivity | right]).
  - intros d. destruct c, d; intros E; try reflexivity; discriminate E.
  - destruct c; reflexivity.
Qed.

(** ** What the strings in a run are made of *)
Definition carried_addr (e : addr_error) : list str := match e with ChunkParseError _ s _ => [s] | _ => [] end.
Definition carried_spec (e : netspec_error) : list str :=
  match e with
  | Unrecognized s => [s]
  | AddressError e | MaskError e => carried_addr e
  | _ => []
  end.
Definition carried (m : errmsg) : list str :=
  match m with
  | MsgFirstAddr e | MsgSecondAddr e => carried_addr e
  | MsgParsing e | MsgError e => carried_spec e
  | MsgHostCount s _ => [s]
  | MsgSplitNetspec s e | MsgNetspec s e | MsgSubnet s e | MsgNetwork s e => s :: carried_spec e
  | _ => []
  end.
Definition capped (m : errmsg) : Prop := match m with MsgCidrMax _ x => x = 32 \/ x = 128 | _ => True end.
Definition out_char (c : ascii) : Prop := printable_ascii c \/ c = "010"%char.
Definition neat_event (e : event) : Prop :=
  match e with
  | EvOut s => Forall out_char s
  | EvStyled _ s => Forall out_char s
  | EvErr m => Forall unicode (carried m) /\ capped m
  end.
Definition neat {X : Type} (m : io X) : Prop := Forall neat_event (fst m).
Definition prints (s : str) : Prop := Forall printable_ascii s.

Lemma prints_app s t : prints s -> prints t -> prints (s ++ t).
Proof. intros. now apply Forall_app. Qed.
Lemma prints_dec n : prints (fmt_dec n).
Proof. apply fmt_printable. now left. Qed.
Lemma prints_hex n : prints (fmt_hex n).
Proof. apply fmt_printable. now right. Qed.
Lemma prints_Z z : prints (fmt_Z z).
Proof. unfold fmt_Z. destruct z; try apply prints_dec. constructor; [split; discriminate|apply prints_dec]. Qed.
Lemma prints_join sep l : prints sep -> Forall prints l -> prints (join sep l).
Proof.
  intros Hs H. induction H as [|x l Hx H IH]; [constructor|]. cbn [join]. destruct l; [exact Hx|].
  apply prints_app; [exact Hx|]. now apply prints_app.
Qed.
Lemma prints_v4 a : prints (v4_display a).
Proof. unfold v4_display. apply prints_join; [now apply printable_check|]. apply Forall_map, Forall_forall. intros x _. apply prints_dec. Qed.
Lemma prints_emit chunks zi zl : forall fuel i, Forall prints (v6_emit fuel chunks zi zl i).
Proof.
  induction fuel as [|f IH]; intros i; cbn [v6_emit]; [constructor|]. destruct (Nat.ltb i 8); [|constructor].
  destruct (match zi with Some z => Nat.eqb z i | None => false end).
  - apply Forall_app. split; [destruct (Nat.eqb i 0); repeat constructor|]. apply Forall_app. split; [repeat constructor|].
    apply Forall_app. split; [destruct (Nat.eqb (i + zl) 8); repeat constructor|apply IH].
  - constructor; [apply prints_hex|apply IH].
Qed.
Lemma prints_v6 a : prints (v6_display a).
Proof.
  unfold v6_display. destruct (_ && _); [now apply printable_check|]. destruct (v6_scan _ _ _ _ _) as [zi zl].
  apply prints_join; [now apply printable_check|apply prints_emit].
Qed.
Lemma prints_addr (R : Rust) F (a : addr F) : prints (display a).
Proof. destruct F; [apply prints_v4|apply prints_v6]. Qed.
Lemma prints_net (R : Rust) F (n : net F) : prints (net_display n).
Proof.
  rewrite net_display_text. apply prints_app; [apply prints_addr|]. constructor; [split; discriminate|].
  destruct (cidr_prefix n); [apply prints_dec|apply prints_addr].
Qed.
Lemma prints_binary l : prints (bytes_to_binary l).
Proof. unfold bytes_to_binary. apply Forall_map, Forall_forall. intros [|] _; split; discriminate. Qed.
Lemma prints_pad s w : prints s -> prints (pad s w).
Proof.
  intros H. assert (forall k, prints (repeat " "%char k)) as S.
  { intros k. apply Forall_forall. intros c Hc. apply repeat_spec in Hc. subst. split; discriminate. }
  unfold pad. destruct (0 <? w)%Z; [|destruct (w <? 0)%Z]; [| |exact H];
    match goal with |- context [if ?b then _ else _] => destruct b end; try exact H; now apply prints_app.
Qed.
Lemma prints_out s : prints s -> Forall out_char s.
Proof. intros H. eapply Forall_impl; [|exact H]. now left. Qed.
Lemma prints_in s c : prints s -> In c s -> prints [c].
Proof. intros H I. unfold prints in H. rewrite Forall_forall in H. repeat constructor; now apply H. Qed.

(** *** Errors *)
Lemma bind_ret {X Y} (m : res X) (f : X -> res Y) y : (x <- m ;; f x) = Ret y -> exists x, m = Ret x /\ f x = Ret y.
Proof. destruct m as [x| |]; [|discriminate|discriminate]. now exists x. Qed.
Lemma index_in {X} (l : list X) i x : index l i = Ret x -> In x l.
Proof. unfold index. destruct (nth_error l i) eqn:E; [|discriminate]. intros H. inversion H; subst. now apply nth_error_In in E. Qed.
Lemma set_index_all {X} (P : X -> Prop) x : P x -> forall l i l', Forall P l -> set_index l i x = Ret l' -> Forall P l'.
Proof.
  intros Hx. induction l as [|y l IH]; intros i l' H E; [discriminate|]. inversion H; subst. cbn [set_index] in E. destruct i as [|i].
  - inversion E; subst. now constructor.
  - apply bind_ret in E. destruct E as (l2 & E & E'). inversion E'; subst. constructor; [assumption|]. now apply (IH i).
Qed.
Lemma v4_loop_error chunks : Forall unicode chunks -> forall i acc e, v4_parse_loop i chunks acc = RErr e -> Forall unicode (carried_addr e).
Proof.
  intros H. induction H as [|c cs Hc H IH]; intros i acc e E; cbn [v4_parse_loop] in E; [discriminate|].
  destruct c as [|x c]; [inversion E; constructor|]. destruct (parse_uint 10 u32_max (x :: c)) as [v|e']; cbn [map_err rbind] in E.
  - destruct (255 <? v); [inversion E; constructor|]. now apply IH in E.
  - inversion E; subst. now repeat constructor.
Qed.
Lemma v4_error s e : unicode s -> v4_from_str s = RErr e -> Forall unicode (carried_addr e).
Proof.
  intros Hs. unfold v4_from_str. destruct (negb _); [intros E; inversion E; constructor|].
  destruct (v4_parse_loop 0 (split_on "." s) 0) as [v|e'] eqn:E; cbn [rbind]; [discriminate|]. intros E'. inversion E'; subst.
  eapply v4_loop_error; [|exact E]. now apply unicode_split.
Qed.
Lemma v6_loop_error actual : Forall unicode actual -> forall n i t b e, v6_value_loop n i actual t b = Ret (RErr e) -> Forall unicode (carried_addr e).
Proof.
  intros H. induction n as [|n IH]; intros i t b e E; cbn [v6_value_loop] in E; [discriminate|].
  apply bind_ret in E. destruct E as (c & Ec & E). apply index_in in Ec. destruct (parse_uint 16 u16_max c) as [v|e'].
  - destruct (Nat.ltb i 4); now apply IH in E.
  - inversion E; subst. constructor; [|constructor]. rewrite Forall_forall in H. now apply H.
Qed.
Lemma copy_front_all (P : str -> Prop) cs : Forall P cs -> forall i l l', Forall P l -> v6_copy_front cs i l = Ret l' -> Forall P l'.
Proof.
  intros H. induction H as [|c cs Hc H IH]; intros i l l' Hl E; cbn [v6_copy_front] in E; [inversion E; now subst|].
  destruct (is_empty c); [inversion E; now subst|]. apply bind_ret in E. destruct E as (l2 & E & E'). apply IH in E'; [exact E'|].
  now apply (set_index_all P c Hc l i).
Qed.
Lemma copy_back_all (P : str -> Prop) cs : Forall P cs -> forall i l l', Forall P l -> v6_copy_back cs i l = Ret l' -> Forall P l'.
Proof.
  intros H. induction H as [|c cs Hc H IH]; intros i l l' Hl E; cbn [v6_copy_back] in E; [inversion E; now subst|].
  destruct (is_empty c); [inversion E; now subst|]. destruct (Nat.ltb _ _); [discriminate|].
  apply bind_ret in E. destruct E as (l2 & E & E'). apply IH in E'; [exact E'|].
  now apply (set_index_all P c Hc l (List.length l - i - 1)).
Qed.
Lemma unicode_check s : forallb (Messages.between 32 126) s = true -> unicode s.
Proof.
  intros H. apply printable_check in H. apply ascii_unicode. eapply Forall_impl; [|exact H]. intros c [_ Hc].
  unfold code. lia.
Qed.
Lemma v6_error s e : unicode s -> v6_from_str s = Ret (RErr e) -> Forall unicode (carried_addr e).
Proof.
  intros Hs. unfold v6_from_str.
  assert (unicode (lit "0")) as H0 by now apply unicode_check.
  cbv zeta.
  match goal with |- context [split_on ":" ?t] => assert (unicode t) as H1 end.
  { assert (unicode (if starts_with_char ":" s then "0"%char :: s else s)) as H1.
    { destruct (starts_with_char ":" s); [|exact Hs]. change ("0"%char :: s) with (lit "0" ++ s). now apply unicode_app. }
    match goal with |- context [ends_with_char ":" ?t] => destruct (ends_with_char ":" t) end; [|exact H1].
    apply unicode_app; [exact H1|exact H0]. }
  apply (unicode_split ":"%char) in H1; [|reflexivity].
  match type of H1 with Forall _ ?l => remember l as cs eqn:Ecs end. clear Ecs. rename H1 into Hc.
  destruct (Nat.ltb 8 (List.length cs)); [intros E; inversion E; constructor|].
  destruct (Nat.ltb 1 _); [intros E; inversion E; constructor|].
  destruct (Nat.eqb _ 0).
  - destruct (negb _); [intros E; inversion E; constructor|]. now apply v6_loop_error.
  - intros E. apply bind_ret in E. destruct E as (l1 & El1 & E). apply bind_ret in E. destruct E as (l2 & El2 & E).
    apply (copy_front_all unicode cs Hc) in El1; [|apply Forall_forall; intros x Hx; apply repeat_spec in Hx; now subst].
    apply (copy_back_all unicode (rev cs)) in El2; [|now apply Forall_rev|exact El1].
    now apply v6_loop_error in E.
Qed.
Lemma addr_neat s e : unicode s -> parse_addr s = Ret (RErr e) -> Forall unicode (carried_addr e).
Proof.
  intros Hs. unfold parse_addr. destruct (contains_char "." s).
  - destruct (contains_char ":" s); [intros E; inversion E; constructor|].
    destruct (v4_from_str s) as [a|e'] eqn:E; cbn [rbind]; [discriminate|]. intros E'. inversion E'; subst. now apply v4_error in E.
  - destruct (contains_char ":" s); [|intros E; inversion E; constructor].
    intros E. apply bind_ret in E. destruct E as ([a|e'] & E1 & E); cbn [rbind] in E; [discriminate|]. inversion E; subst. now apply v6_error in E1.
Qed.
Lemma subnet_neat `{R : Rust} s e : unicode s -> parse_subnet s = Ret (RErr e) -> Forall unicode (carried_spec e).
Proof.
  intros Hs. unfold parse_subnet. destruct (contains_char ":" s).
  - intros E. apply bind_ret in E. destruct E as ([a|e'] & E1 & E); [discriminate|]. inversion E; subst. now apply v6_error in E1.
  - destruct (contains_char "." s).
    + destruct (v4_from_str s) as [a|e'] eqn:E; [discriminate|]. intros E'. inversion E'; subst. now apply v4_error in E.
    + destruct (parse_uint 10 usize_max s); [discriminate|]. intros E'. inversion E'; subst. constructor.
Qed.
Lemma rd_error F s e : unicode s -> rd F s = Ret (RErr e) -> Forall unicode (carried_addr e).
Proof. intros Hs. destruct F; cbn [rd]; intros E; [|now apply v6_error in E]. inversion E as [E']. now apply v4_error in E'. Qed.
Lemma spec_text_unicode A w M : unicode (spec_text A w M) -> unicode A /\ unicode M.
Proof.
  unfold spec_text. intros H. apply (unicode_cut A "/"%char) in H; [|reflexivity]. destruct H as [HA H]. split; [exact HA|].
  destruct w; [|exact H]. now apply (unicode_cut [] "-"%char) in H.
Qed.
Lemma netspec_neat (R : Rust) s e : unicode s -> parse_netspec s = Ret (RErr e) -> Forall unicode (carried_spec e).
Proof.
  intros Hs. destruct (netspec_cases R s) as [(F & A & w & M & -> & _ & _ & ->)|[(F & A & w & M & -> & _ & _ & ->)|(_ & ->)]].
  - apply spec_text_unicode in Hs. destruct Hs as [HA HM]. unfold mask_result. intros E. apply bind_ret in E. destruct E as ([a|e1] & E1 & E).
    + apply bind_ret in E. destruct E as ([m|e2] & E2 & E); [discriminate|]. inversion E; subst. now apply rd_error in E2.
    + inversion E; subst. now apply rd_error in E1.
  - apply spec_text_unicode in Hs. destruct Hs as [HA HM]. unfold cidr_result. intros E. apply bind_ret in E. destruct E as ([a|e1] & E1 & E).
    + destruct (parse_uint 10 usize_max M) as [c|e2]; [|inversion E; constructor]. destruct (_ <? c); [inversion E; constructor|].
      apply bind_ret in E. destruct E as (p & _ & E). apply bind_ret in E. destruct E as (q & _ & E). discriminate.
    + inversion E; subst. now apply rd_error in E1.
  - intros E. inversion E; subst. now constructor.
Qed.
Lemma specs_neat (R : Rust) ss e : Forall unicode ss -> parse_same_family_netspecs ss = Ret (RErr e) -> Forall unicode (carried_spec e).
Proof.
  intros H. destruct ss as [|s ss]; [discriminate|]. inversion H; subst. cbn [parse_same_family_netspecs].
  assert (forall ss, Forall unicode ss -> forall acc, specs4_loop ss acc = Ret (RErr e) -> Forall unicode (carried_spec e)) as L4.
  { intros l Hl. induction Hl as [|x l Hx Hl IH]; intros acc E; cbn [specs4_loop] in E; [discriminate|].
    apply bind_ret in E. destruct E as ([[a n|a n]|e'] & E1 & E); [now apply IH in E|discriminate|]. inversion E; subst. now apply netspec_neat in E1. }
  assert (forall ss, Forall unicode ss -> forall acc, specs6_loop ss acc = Ret (RErr e) -> Forall unicode (carried_spec e)) as L6.
  { intros l Hl. induction Hl as [|x l Hx Hl IH]; intros acc E; cbn [specs6_loop] in E; [discriminate|].
    apply bind_ret in E. destruct E as ([[a n|a n]|e'] & E1 & E); [discriminate|now apply IH in E|]. inversion E; subst. now apply netspec_neat in E1. }
  intros E. apply bind_ret in E. destruct E as ([[a n|a n]|e'] & E1 & E); [now apply L4 in E|now apply L6 in E|].
  inversion E; subst. now apply netspec_neat in E1.
Qed.
Lemma show_neat (R : Rust) ss e : Forall unicode ss -> forall acc, show_parse ss acc = Ret (RErr e) -> Forall unicode (carried_spec e).
Proof.
  intros Hl. induction Hl as [|x l Hx Hl IH]; intros acc E; cbn [show_parse] in E; [discriminate|].
  apply bind_ret in E. destruct E as ([sp|e'] & E1 & E); [now apply IH in E|]. inversion E; subst. now apply netspec_neat in E1.
Qed.
Lemma counts_neat l m : Forall unicode l -> forall acc, parse_host_counts l acc = RErr m -> Forall unicode (carried m) /\ capped m.
Proof.
  intros H. induction H as [|s l Hs H IH]; intros acc E; cbn [parse_host_counts] in E; [discriminate|].
  destruct (parse_bigint s) as [c|e].
  - destruct (c <? 0)%Z; [inversion E; now split; [constructor|]|]. now apply IH in E.
  - inversion E; subst. now repeat constructor.
Qed.

(** *** Runs *)
Lemma neat_ret {X} (x : X) : neat (io_ret x).
Proof. constructor. Qed.
Lemma neat_lift {X} (r : res X) : neat (io_lift r).
Proof. constructor. Qed.
Lemma neat_println s : prints s -> neat (println s).
Proof. intros H. repeat constructor. apply Forall_app. split; [now apply prints_out|]. constructor; [now right|constructor]. Qed.
Lemma neat_eprintln m : Forall unicode (carried m) -> capped m -> neat (eprintln m).
Proof. intros H H'. repeat constructor; [exact H|exact H']. Qed.
Lemma neat_write (T : Terminal) s c w : prints s -> neat (write_in_color s c w).
Proof.
  intros H. apply (prints_pad s w) in H. unfold write_in_color. destruct colors_enabled; [destruct c|]; try now apply neat_println.
  repeat constructor. now apply prints_out.
Qed.
Lemma neat_bind {X Y} (m : io X) (f : X -> io Y) :
  neat m -> (forall x, snd m = Ret x -> neat (f x)) -> neat (io_bind m f).
Proof.
  intros Hm Hf. unfold neat, io_bind. destruct (snd m) as [x| |]; cbn [fst]; [|exact Hm|exact Hm].
  apply Forall_app. split; [exact Hm|now apply Hf].
Qed.
Lemma neat_for {X} (l : list X) (body : X -> io unit) : (forall x, neat (body x)) -> neat (io_for l body).
Proof. intros H. induction l as [|x l IH]; cbn [io_for]; [apply neat_ret|]. apply neat_bind; [apply H|]. intros _ _. exact IH. Qed.

Ltac prnt := first
  [ assumption | now apply printable_check | apply prints_dec | apply prints_Z | apply prints_addr | apply prints_v4 | apply prints_v6 | apply prints_net | apply prints_binary
  | apply prints_app; prnt ].
Ltac neat1 :=
  match goal with
  | |- neat (io_bind _ _) => apply neat_bind; [|let E := fresh "Eq" in intros ? E; cbn [snd io_lift] in E]
  | |- neat (io_ret _) => apply neat_ret
  | |- neat (io_lift _) => apply neat_lift
  | |- neat (println _) => apply neat_println
  | |- neat (eprintln _) => apply neat_eprintln; [cbn [carried]|try exact I; try (now left); try (now right)]
  | |- neat (write_in_color _ _ _) => apply neat_write
  | |- neat (io_for _ _) => apply neat_for; intros ?
  | |- neat (match ?x with _ => _ end) => destruct x eqn:?
  | |- prints (match ?x with _ => _ end) => destruct x
  end.
Ltac nea := repeat (cbn beta iota; neat1).

Section Neat.
  Context (R : Rust) (T : Terminal).

  Lemma neat_v4_loop (bytes : list N) : forall i len m cc oc, neat (output_binary_ipv4_loop i len bytes m cc oc).
  Proof.
    induction bytes as [|b bytes IH]; intros i len m cc oc; cbn [output_binary_ipv4_loop]; [nea|].
    cbv zeta. nea; try apply IH; try prnt; eapply prints_in; [apply prints_binary|eapply index_in; eassumption].
  Qed.
  Lemma neat_v6_loop (bytes : list N) : forall i len m oc, neat (output_binary_ipv6_loop i len bytes m oc).
  Proof.
    induction bytes as [|b bytes IH]; intros i len m oc; cbn [output_binary_ipv6_loop]; [nea|].
    cbv zeta. nea; try apply IH; try prnt; eapply prints_in; [apply prints_binary|eapply index_in; eassumption].
  Qed.
  Lemma neat_class s t : neat (output_ipv4_class s t).
  Proof. unfold output_ipv4_class. nea; prnt. Qed.
  Lemma neat_network F lw aw out cls (n : net F) a :
    (forall x m c o, neat (out x m c o)) -> (forall s t, neat (cls s t)) -> neat (output_network lw aw out cls n a).
  Proof.
    intros Ho Hc. unfold output_network, output_given_address, output_initial_columns. cbv zeta.
    nea; first [apply Ho | apply Hc | idtac]; prnt.
  Qed.
  Lemma neat_show4 n a : neat (output_ipv4_network n a).
  Proof. apply (neat_network V4); [|apply neat_class]. intros. apply neat_v4_loop. Qed.
  Lemma neat_show6 n a : neat (output_ipv6_network n a).
  Proof. apply (neat_network V6); [|intros; apply neat_ret]. intros. apply neat_v6_loop. Qed.
  Lemma neat_nets F (l : list (net F)) : neat (print_nets l).
  Proof. unfold print_nets. nea. apply prints_net. Qed.
  Lemma neat_subnets F (out : net F -> option (addr F) -> io unit) l : (forall n a, neat (out n a)) -> forall i, neat (output_subnets i l out).
  Proof. intros H. induction l as [|n l IH]; intros i; cbn [output_subnets]; nea; try apply H; try apply IH; prnt. Qed.
  Lemma neat_split F (out : net F -> option (addr F) -> io unit) n cs : (forall n a, neat (out n a)) -> neat (output_split n cs out).
  Proof. intros H. unfold output_split. nea; try apply H; try apply neat_nets; prnt. Qed.
  Lemma neat_resize F (out : net F -> option (addr F) -> io unit) n m : (forall n a, neat (out n a)) -> neat (resize_and_output n m out).
  Proof. intros H. unfold resize_and_output. nea; try apply H; try (now apply neat_subnets); prnt. Qed.
  Lemma neat_specs l : forall b, neat (show_specs l b).
  Proof. induction l as [|s l IH]; intros b; cbn [show_specs]; nea; first [apply neat_show4 | apply neat_show6 | apply IH | prnt]. Qed.
  Lemma neat_addrs F (n : net F) : neat (print_addrs n).
  Proof.
    unfold print_addrs, io_while. nea. generalize dependent x. generalize fuel_doublings. intros k x _. revert x.
    induction k as [|k IH]; intros x; cbn [io_loop]; [|nea; apply IH]. unfold print_addrs_step. nea. apply prints_addr.
  Qed.
  Lemma neat_enumerate l : Forall unicode l -> forall z, neat (enumerate_loop l z).
  Proof.
    intros Hl. induction Hl as [|s l Hs Hl IH]; intros z; cbn [enumerate_loop]; nea; try apply IH.
    - apply (neat_addrs V4).
    - apply (neat_addrs V6).
    - constructor; [exact Hs|]. now apply (netspec_neat R s).
  Qed.
  Lemma args_skip args k : Forall unicode args -> Forall unicode (skipn k args).
  Proof. apply Forall_rest. Qed.

  Lemma neat_minimize args : Forall unicode args -> neat (minimize args).
  Proof.
    intros H. unfold minimize, usage. nea; try exact (Forall_nil _).
    - apply (neat_nets V4).
    - apply (neat_nets V6).
    - eapply (specs_neat R); [|eassumption]. now apply Forall_rest.
  Qed.
  Ltac unargs := repeat match goal with H : Forall unicode (_ :: _) |- _ => inversion H; clear H; subst end.
  Lemma neat_derange args : Forall unicode args -> neat (derange args).
  Proof.
    intros H. unfold derange, usage. nea; try exact (Forall_nil _); subst; unargs;
      first [apply (neat_nets V4) | apply (neat_nets V6) | eapply addr_neat; [|eassumption]; assumption].
  Qed.
  Lemma neat_split_cmd args : Forall unicode args -> neat (Main.split args).
  Proof.
    intros H. unfold Main.split, usage. nea; try exact (Forall_nil _); subst; unargs;
      first [apply (neat_split V4), neat_show4 | apply (neat_split V6), neat_show6
            | constructor; [assumption|]; eapply (netspec_neat R); [|eassumption]; assumption
            | eapply counts_neat; [|eassumption]; now constructor ].
  Qed.
  Lemma neat_resize_cmd args : Forall unicode args -> neat (resize args).
  Proof.
    intros H. unfold resize, usage. nea; try exact (Forall_nil _); subst; unargs;
      first [apply (neat_resize V4), neat_show4 | apply (neat_resize V6), neat_show6
            | constructor; [assumption|]; first [eapply (netspec_neat R); [|eassumption]; assumption | eapply subnet_neat; [|eassumption]; assumption] ].
  Qed.
  Lemma neat_do_main args : Forall unicode args -> neat (do_main args).
  Proof.
    intros H. unfold do_main, usage, color_test. nea; try exact (Forall_nil _); try prnt; subst;
      first [now apply neat_minimize | now apply neat_derange | now apply neat_split_cmd | now apply neat_resize_cmd | idtac].
    - unfold enumerate, usage. nea; [constructor|]. apply neat_enumerate. now apply Forall_rest.
    - unfold show_net. nea; [apply neat_specs|]. eapply (show_neat R); [|eassumption]. now inversion H.
  Qed.
End Neat.

(** ** C70 *)
Lemma terminal_text p s rest : ~ In escape s ->
  terminal p Text (s ++ rest) =
    match terminal p Text rest with Some (l, q) => Some (map (fun x => (x, p)) s ++ l, q) | None => None end.
Proof.
  intros H. induction s as [|c s IH]; cbn [List.app terminal map]; [now destruct (terminal p Text rest) as [[l q]|]|].
  destruct (Ascii.eqb_spec c "027") as [->|_]; [destruct H; now left|]. rewrite IH by (intros I; apply H; now right).
  now destruct (terminal p Text rest) as [[l q]|].
Qed.
Lemma terminal_colour c rest :
  terminal Normal Text ((let (bright, a) := style c in
   escape :: (if bright then lit "[38;5;" ++ fmt_dec (ansi_num a + 8) ++ lit "m"
              else lit "[" ++ fmt_dec (ansi_num a + 30) ++ lit "m")) ++ rest) = terminal (pen_of c) Text rest.
Proof. destruct c; reflexivity. Qed.
Lemma terminal_styled c s rest : ~ In escape s ->
  terminal Normal Text (styled_text c s ++ rest) =
    match terminal Normal Text rest with Some (l, q) => Some (map (fun x => (x, pen_of c)) s ++ l, q) | None => None end.
Proof.
  intros H. unfold styled_text. rewrite <- app_assoc, terminal_colour, <- app_assoc, terminal_text by exact H. reflexivity.
Qed.
Definition drawn_event (e : event) : list (ascii * pen) :=
  match e with
  | EvOut s => map (fun x => (x, Normal)) s
  | EvStyled c s => map (fun x => (x, pen_of c)) s
  | EvErr _ => []
  end.
Lemma out_no_escape s : Forall out_char s -> ~ In escape s.
Proof.
  intros H I. rewrite Forall_forall in H. destruct (H _ I) as [[H1 _]|E]; [|discriminate E]. now apply H1.
Qed.
Lemma seen_events es : Forall neat_event es -> seen (flat_map to_stdout es) = Some (flat_map drawn_event es, Normal).
Proof.
  unfold seen. intros H. induction H as [|e es He H IH]; [reflexivity|]. cbn [flat_map]. destruct e as [s|c s|m]; cbn [neat_event to_stdout drawn_event] in *.
  - rewrite terminal_text by now apply out_no_escape. now rewrite IH.
  - rewrite terminal_styled by now apply out_no_escape. now rewrite IH.
  - exact IH.
Qed.
Lemma utf8_args args : forallb is_utf8 args = true <-> Forall unicode args.
Proof.
  rewrite forallb_forall, Forall_forall. split; intros H s Hs; apply utf8_unicode; now apply H.
Qed.
Lemma main_run (U : Unicode) (R : Rust) (T : Terminal) args : Forall unicode args ->
  main args = {| on_stdout := flat_map to_stdout (fst (do_main args)); on_stderr := flat_map to_stderr (fst (do_main args)); ended := snd (do_main args) |}.
Proof. intros H. apply utf8_args in H. unfold main, run_of. rewrite H. now destruct (do_main args). Qed.
Lemma main_panic (U : Unicode) (R : Rust) (T : Terminal) args : ~ Forall unicode args ->
  main args = {| on_stdout := []; on_stderr := []; ended := Panic |}.
Proof. intros H. unfold main. destruct (forallb is_utf8 args) eqn:E; [|reflexivity]. destruct H. now apply utf8_args. Qed.
Lemma unicode_args_dec args : {Forall unicode args} + {~ Forall unicode args}.
Proof. destruct (forallb is_utf8 args) eqn:E; [left|right; intros H]; apply utf8_args in E || apply utf8_args in H; [exact E|congruence]. Qed.

Lemma c70_seen : forall (U : Unicode) (R : Rust) (args : list str) (ms : list mark) (r : res Z) (T : Terminal),
  (forall T' : Terminal, @do_main R T' args = (map (paint (@colors_enabled T')) ms, r)) ->
  Forall unicode args -> colors_enabled = true ->
  seen (on_stdout (main args)) = Some (flat_map drawn ms, Normal) /\ ended (main args) = r.
Proof.
  intros U R args ms r T E Ha Hc. rewrite main_run by exact Ha. cbn [on_stdout ended]. pose proof (neat_do_main R T args Ha) as Hn.
  unfold neat in Hn. rewrite (E T) in *. cbn [fst snd] in *. rewrite Hc in *. rewrite seen_events by exact Hn. split; [|reflexivity].
  do 2 f_equal. clear. induction ms as [|m ms IH]; [reflexivity|]. cbn [map flat_map]. rewrite IH. f_equal. now destruct m.
Qed.

Lemma c70_ascii : forall (U : Unicode) (R : Rust) (T : Terminal) (args : list str),
  exists l, seen (on_stdout (main args)) = Some (l, Normal) /\
    Forall (fun x => printable_ascii (fst x) \/ fst x = "010"%char) l /\
    (colors_enabled = false -> on_stdout (main args) = map fst l /\ Forall (fun x => snd x = Normal) l).
Proof.
  intros U R T args. destruct (unicode_args_dec args) as [Ha|Ha].
  2: { rewrite main_panic by exact Ha. exists []. split; [reflexivity|]. split; [constructor|]. intros _. split; [reflexivity|constructor]. }
  rewrite main_run by exact Ha. cbn [on_stdout]. pose proof (neat_do_main R T args Ha) as Hn. unfold neat in Hn.
  eexists. split; [now apply seen_events|]. split.
  - induction Hn as [|e es He Hn IH]; [constructor|]. cbn [flat_map]. apply Forall_app. split; [|exact IH].
    destruct e as [s|c s|m]; cbn [drawn_event neat_event] in *; [| |constructor]; apply Forall_map; exact He.
  - intros Hc. destruct (c60_same_marks R args) as (ms & r & E). rewrite (E T), Hc. cbn [fst]. clear.
    induction ms as [|m ms [IH IH']]; [split; [reflexivity|constructor]|]. cbn [map flat_map]. split.
    + rewrite IH, map_app. f_equal. destruct m; cbn [paint drawn_event to_stdout line]; [| |reflexivity]; now rewrite map_map, map_id.
    + apply Forall_app. split; [|exact IH']. destruct m; cbn [paint drawn_event line]; [| |constructor]; apply Forall_map, Forall_forall; reflexivity.
Qed.

(** ** C71 *)
Lemma c71_literal : forall (U : Unicode) (s rest : str),
  unicode s -> literal (debug_str s ++ rest) = Some (s, rest).
Proof. exact c71_literal_U. Qed.

Lemma c71_plain : forall (U : Unicode) (s : str),
  Forall (fun c => printable_ascii c /\ c <> """"%char /\ c <> "\"%char) s ->
  debug_str s = lit """" ++ s ++ lit """".
Proof. exact c71_plain_U. Qed.

Section Tidy.
  Context (U : Unicode).
  Lemma tidy_lit s : forallb (Messages.between 32 126) s = true -> tidy s.
  Proof. intros H. now apply tidy_ascii, printable_check. Qed.
  Lemma tidy_dec n : tidy (fmt_dec n).
  Proof. apply tidy_ascii, prints_dec. Qed.
  Lemma tidy_usize n : tidy (fmt_usize n).
  Proof. apply tidy_dec. Qed.
  Ltac td := first [ assumption | match goal with H : forall _, tidy _ |- _ => apply H end | match goal with H : forall _, _ -> tidy _ |- _ => apply H; assumption end | now apply tidy_lit | apply tidy_dec | apply tidy_usize | now apply debug_tidy | apply tidy_app; td ].
  Lemma int_text_tidy e : tidy (int_error_text e).
  Proof. destruct e; td. Qed.
  Lemma int_debug_tidy e : tidy (int_error_debug e).
  Proof. destruct e; td. Qed.
  Lemma addr_text_tidy e : Forall unicode (carried_addr e) -> tidy (addr_error_text e).
  Proof. pose proof int_text_tidy. destruct e; cbn [carried_addr]; intros H'; try (inversion H'; subst); cbn [addr_error_text]; td. Qed.
  Lemma addr_debug_tidy e : Forall unicode (carried_addr e) -> tidy (addr_error_debug e).
  Proof. pose proof int_debug_tidy. destruct e; cbn [carried_addr]; intros H'; try (inversion H'; subst); cbn [addr_error_debug]; td. Qed.
  Lemma spec_text_tidy e : Forall unicode (carried_spec e) -> tidy (netspec_error_text e).
  Proof.
    pose proof int_debug_tidy. pose proof addr_debug_tidy.
    destruct e; cbn [carried_spec]; intros H'; cbn [netspec_error_text]; try td. inversion H'; subst. td.
  Qed.
  Lemma message_tidy m : Forall unicode (carried m) -> Forall tidy (message_lines m).
  Proof.
    pose proof int_text_tidy. pose proof addr_text_tidy. pose proof spec_text_tidy.
    intros H'. destruct m; cbn [message_lines carried] in *; unfold usage_lines; repeat (constructor; [|]); try (constructor; fail);
      try (inversion H'; subst; td); try td.
    assert (tidy (if max =? 32 then lit "IPv4 (32)" else lit "IPv6 (128)")) by (destruct (max =? 32); td). td.
  Qed.
End Tidy.
Lemma lines_app a b : lines (a ++ b) = lines a ++ lines b.
Proof. apply flat_map_app. Qed.

Lemma c71_tidy : forall (U : Unicode) (R : Rust) (T : Terminal) (args : list str),
  exists ls, on_stderr (main args) = lines ls /\ Forall tidy ls.
Proof.
  intros U R T args. destruct (unicode_args_dec args) as [Ha|Ha].
  2: { rewrite main_panic by exact Ha. exists []. split; [reflexivity|constructor]. }
  rewrite main_run by exact Ha. cbn [on_stderr]. pose proof (neat_do_main R T args Ha) as Hn. unfold neat in Hn.
  induction Hn as [|e es He Hn (ls & E & Hl)]; [exists []; split; [reflexivity|constructor]|].
  cbn [flat_map]. rewrite E. destruct e as [s|c s|m]; cbn [to_stderr]; try (now exists ls).
  exists (message_lines m ++ ls). split; [now rewrite lines_app|]. apply Forall_app. split; [|exact Hl]. apply message_tidy, He.
Qed.

Lemma has_literal (U : Unicode) before s rest : unicode s -> existsb (Ascii.eqb """"%char) before = false ->
  exists b text after, (before ++ debug_str s ++ rest) ++ newline = b ++ text ++ after /\ ~ In """"%char b /\ literal (text ++ after) = Some (s, after).
Proof.
  intros Hs Hb. exists before, (debug_str s), (rest ++ newline). rewrite <- !app_assoc. split; [reflexivity|]. split; [|now apply c71_literal].
  intros I. enough (existsb (Ascii.eqb """"%char) before = true) by congruence. apply existsb_exists. exists """"%char. now rewrite Ascii.eqb_refl.
Qed.
Lemma c71_names : forall (U : Unicode) (s : str) (m : errmsg),
  unicode s ->
  (exists e, m = MsgHostCount s e) \/ (exists e, m = MsgSplitNetspec s e) \/ (exists e, m = MsgNetspec s e) \/
  (exists e, m = MsgSubnet s e) \/ (exists e, m = MsgNetwork s e) \/
  m = MsgError (Unrecognized s) \/ m = MsgParsing (Unrecognized s) ->
  exists before text after, message_text m = before ++ text ++ after /\ ~ In """"%char before /\
    literal (text ++ after) = Some (s, after).
Proof.
  intros U s m Hs Hm. unfold message_text.
  destruct Hm as [(e & ->)|[(e & ->)|[(e & ->)|[(e & ->)|[(e & ->)|[-> | ->]]]]]]; cbn [message_lines flat_map netspec_error_text]; rewrite app_nil_r;
    try (apply has_literal; [exact Hs|reflexivity]).
  - rewrite <- (app_nil_r (debug_str s)). apply has_literal; [exact Hs|reflexivity].
  - rewrite <- (app_nil_r (debug_str s)), (app_assoc (lit "parsing error: ")). apply has_literal; [exact Hs|reflexivity].
Qed.

(** ** C72 *)
Lemma c72_utf8 : forall (s : str), is_utf8 s = true <-> unicode s.
Proof. exact utf8_unicode. Qed.

Lemma c72_ends_iff : forall (U : Unicode) (R : Rust) (T : Terminal) (args : list str),
  (exists z, ended (main args) = Ret z) <-> Forall unicode args /\ ~ derange_to_top args /\ ~ split_to_top args.
Proof.
  intros U R T args. destruct (unicode_args_dec args) as [Ha|Ha].
  - rewrite main_run by exact Ha. cbn [ended]. rewrite (c62_ends_iff R T args). tauto.
  - rewrite main_panic by exact Ha. cbn [ended]. split; [intros (z & E); discriminate|tauto].
Qed.

Lemma no_messages (U : Unicode) es : flat_map to_stderr es = [] <-> (forall m, ~ In (EvErr m) es).
Proof.
  assert (forall m, message_text m <> []) as Hm.
  { intros m. unfold message_text. destruct m; cbn [message_lines flat_map usage_lines]; intros E;
      apply app_eq_nil in E; destruct E as [E _]; apply app_eq_nil in E; destruct E as [_ E]; discriminate E. }
  split.
  - intros E m I. apply in_split in I. destruct I as (a & b & ->). rewrite flat_map_app in E. cbn [flat_map to_stderr] in E.
    apply app_eq_nil in E. destruct E as [_ E]. apply app_eq_nil in E. now apply (Hm m).
  - induction es as [|e es IH]; intros H; [reflexivity|]. cbn [flat_map]. rewrite IH by (intros m I; apply (H m); now right).
    destruct e as [s|c s|m]; try reflexivity. destruct (H m). now left.
Qed.
Lemma has_message (U : Unicode) es : flat_map to_stderr es <> [] -> exists m, In (EvErr m) es.
Proof.
  induction es as [|e es IH]; intros H; [now destruct H|]. cbn [flat_map] in H. destruct e as [s|c s|m]; cbn [to_stderr List.app] in H;
    [destruct (IH H) as (m & I); exists m; now right|destruct (IH H) as (m & I); exists m; now right|exists m; now left].
Qed.
Lemma c72_status : forall (U : Unicode) (R : Rust) (T : Terminal) (args : list str) (z : Z),
  ended (main args) = Ret z ->
  (z = 0 \/ z = 1)%Z /\
  (z = 1%Z -> on_stderr (main args) <> [] \/ exists prog w rest, args = prog :: w :: rest /\ In w split_words) /\
  (z = 0%Z -> on_stderr (main args) = [] \/
     exists prog rest, args = prog :: lit "--help" :: rest /\ on_stderr (main args) = lines usage_text).
Proof.
  intros U R T args z. destruct (unicode_args_dec args) as [Ha|Ha]; [|rewrite main_panic by exact Ha; discriminate].
  rewrite main_run by exact Ha. cbn [ended on_stderr]. intros E. split; [now apply (c62_status R T args)|]. split; intros ->.
  - destruct (c62_failure_told R T args E) as [(m & I)|[H _]]; [left|right; exact H].
    intros E'. now apply (proj1 (no_messages U _) E' m).
  - destruct (flat_map to_stderr (fst (do_main args))) eqn:E'; [now left|right].
    assert (exists m, In (EvErr m) (fst (do_main args))) as (m & I).
    { apply (has_message U). now rewrite E'. }
    destruct (c62_success_silent R T args m E I) as (_ & prog & rest & ->). exists prog, rest. split; [reflexivity|]. rewrite <- E'. reflexivity.
Qed.
