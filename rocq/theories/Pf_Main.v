(** * Pf_Main: proofs for P_Main *)
From Verif Require Import RustBase Addr BitManip Net Parse Console ShowNet Main Spec SpecText SpecIO SpecShow SpecMain Demo
  Bits Weave Bytes Laws NetFacts SetFacts Family TextFacts Blocks DerangeFacts SplitFacts Pf_Addr Pf_Bits Pf_Net Pf_Netspec Pf_Minimize Pf_Derange
  Pf_Split Pf_Resize Pf_Enum Pf_Show.
From Coq Require Import ZifyBool ZifyNat ZifyN.
Ltac Zify.zify_post_hook ::= idtac.

(** ** C60 *)
Definition uniform {X : Type} (f : Terminal -> io X) : Prop :=
  exists ms r, forall T : Terminal, f T = (map (paint (@colors_enabled T)) ms, r).

Lemma uniform_ret {X} (x : X) : uniform (fun _ => io_ret x).
Proof. exists [], (Ret x). reflexivity. Qed.
Lemma uniform_lift {X} (r : res X) : uniform (fun _ => io_lift r).
Proof. exists [], r. reflexivity. Qed.
Lemma uniform_println s : uniform (fun _ => println s).
Proof. exists [Plain (s ++ newline)], (Ret tt). reflexivity. Qed.
Lemma uniform_eprintln m : uniform (fun _ => eprintln m).
Proof. exists [Problem m], (Ret tt). reflexivity. Qed.
Lemma uniform_write s c w : uniform (fun T => write_in_color s (Some c) w).
Proof.
  exists [Frag c (pad s w)], (Ret tt). intros T. unfold write_in_color. cbn [map paint].
  destruct colors_enabled; reflexivity.
Qed.
Lemma uniform_bind {X Y} (m : Terminal -> io X) (f : Terminal -> X -> io Y) :
  uniform m -> (forall x, uniform (fun T => f T x)) -> uniform (fun T => io_bind (m T) (f T)).
Proof.
  intros (ms & r & Hm) Hf. destruct r as [x| |].
  - destruct (Hf x) as (ms' & r' & Hx). exists (ms ++ ms'), r'. intros T. rewrite Hm. unfold io_bind. cbn [fst snd].
    now rewrite Hx, map_app.
  - exists ms, Panic. intros T. now rewrite Hm.
  - exists ms, Diverge. intros T. now rewrite Hm.
Qed.
Lemma uniform_for {X} (l : list X) (body : Terminal -> X -> io unit) :
  (forall x, uniform (fun T => body T x)) -> uniform (fun T => io_for l (body T)).
Proof.
  intros H. induction l as [|x l IH]; cbn [io_for]; [apply uniform_ret|].
  apply (uniform_bind (fun T => body T x) (fun T _ => io_for l (body T))); [apply H|]. intros _. exact IH.
Qed.

Ltac uni1 :=
  match goal with
  | |- uniform (fun T => io_bind (@?m T) (@?f T)) => apply (uniform_bind m f); [|intros ?]
  | |- uniform (fun T => io_ret _) => apply uniform_ret
  | |- uniform (fun T => io_lift _) => apply uniform_lift
  | |- uniform (fun T => println _) => apply uniform_println
  | |- uniform (fun T => eprintln _) => apply uniform_eprintln
  | |- uniform (fun T => write_in_color _ (Some _) _) => apply uniform_write
  | |- uniform (fun T => io_for ?l (@?body T)) => apply (uniform_for l body); intros ?
  | |- uniform (fun T => match ?x with _ => _ end) => destruct x
  end.
Ltac uni := repeat (cbn beta iota; uni1).

Lemma uniform_v4_loop (bytes : list N) : forall i len m cc oc, uniform (fun T => output_binary_ipv4_loop i len bytes m cc oc).
Proof.
  induction bytes as [|b bytes IH]; intros i len m cc oc; cbn [output_binary_ipv4_loop]; [uni|].
  cbv zeta. uni; apply IH.
Qed.
Lemma uniform_v6_loop (bytes : list N) : forall i len m oc, uniform (fun T => output_binary_ipv6_loop i len bytes m oc).
Proof.
  induction bytes as [|b bytes IH]; intros i len m oc; cbn [output_binary_ipv6_loop]; [uni|].
  cbv zeta. uni; apply IH.
Qed.
Lemma uniform_show4 (R : Rust) n a : uniform (fun T => output_ipv4_network n a).
Proof.
  unfold output_ipv4_network, output_network, output_given_address, output_initial_columns, output_ipv4_class, output_binary_ipv4_address.
  cbv zeta. uni; apply uniform_v4_loop.
Qed.
Lemma uniform_show6 (R : Rust) n a : uniform (fun T => output_ipv6_network n a).
Proof.
  unfold output_ipv6_network, output_network, output_given_address, output_initial_columns, output_binary_ipv6_address.
  cbv zeta. uni; apply uniform_v6_loop.
Qed.

Lemma uniform_subnets {A : Type} (out : Terminal -> network A -> option A -> io unit) (l : list (network A)) :
  (forall n a, uniform (fun T => out T n a)) -> forall i, uniform (fun T => output_subnets i l (out T)).
Proof.
  intros H. induction l as [|n l IH]; intros i; cbn [output_subnets]; uni; [apply H|apply IH].
Qed.
Lemma uniform_split {A : Type} (R : Rust) {I : IpAddress A} (out : Terminal -> network A -> option A -> io unit) n cs :
  (forall n a, uniform (fun T => out T n a)) -> uniform (fun T => output_split n cs (out T)).
Proof. intros H. unfold output_split, print_nets. uni; apply H. Qed.
Lemma uniform_resize {A : Type} (R : Rust) {I : IpAddress A} (out : Terminal -> network A -> option A -> io unit) n m :
  (forall n a, uniform (fun T => out T n a)) -> uniform (fun T => resize_and_output n m (out T)).
Proof. intros H. unfold resize_and_output. uni; try apply H. now apply uniform_subnets. Qed.
Lemma uniform_while {S X : Type} (step : Terminal -> S -> io (S + X)) :
  (forall s, uniform (fun T => step T s)) -> forall s, uniform (fun T => io_while (step T) s).
Proof.
  intros H s. unfold io_while. assert (forall k s, uniform (fun T => io_loop (step T) k s)) as L.
  { induction k as [|k IH]; intros s'; cbn [io_loop]; [apply H|]. uni; apply IH. }
  generalize fuel_doublings. intros k. uni. apply L.
Qed.
Lemma uniform_addrs {A : Type} (R : Rust) {I : IpAddress A} (n : network A) : uniform (fun T => print_addrs n).
Proof.
  unfold print_addrs. uni. apply (uniform_while (fun T => print_addrs_step)). intros it. unfold print_addrs_step. uni.
Qed.
Lemma uniform_enumerate (R : Rust) l : forall z, uniform (fun T => enumerate_loop l z).
Proof. induction l as [|s l IH]; intros z; cbn [enumerate_loop]; uni; first [apply IH | apply uniform_addrs]. Qed.
Lemma uniform_specs (R : Rust) l : forall b, uniform (fun T => show_specs l b).
Proof.
  induction l as [|s l IH]; intros b; cbn [show_specs]; uni; first [apply uniform_show4 | apply uniform_show6 | apply IH].
Qed.

Lemma uniform_split4 (R : Rust) n cs : uniform (fun T => output_split n cs output_ipv4_network).
Proof. apply (uniform_split R (fun T => output_ipv4_network)), uniform_show4. Qed.
Lemma uniform_split6 (R : Rust) n cs : uniform (fun T => output_split n cs output_ipv6_network).
Proof. apply (uniform_split R (fun T => output_ipv6_network)), uniform_show6. Qed.
Lemma uniform_resize4 (R : Rust) n m : uniform (fun T => resize_and_output n m output_ipv4_network).
Proof. apply (uniform_resize R (fun T => output_ipv4_network)), uniform_show4. Qed.
Lemma uniform_resize6 (R : Rust) n m : uniform (fun T => resize_and_output n m output_ipv6_network).
Proof. apply (uniform_resize R (fun T => output_ipv6_network)), uniform_show6. Qed.
Opaque output_split resize_and_output output_ipv4_network output_ipv6_network.
Lemma uniform_minimize (R : Rust) args : uniform (fun T => minimize args).
Proof. unfold minimize, print_nets, usage. uni. Qed.
Lemma uniform_derange (R : Rust) args : uniform (fun T => derange args).
Proof. unfold derange, print_nets, usage. uni. Qed.
Lemma uniform_split_cmd (R : Rust) args : uniform (fun T => Main.split args).
Proof.
  unfold Main.split, usage. uni;
    first [apply uniform_split4
          | apply uniform_split6].
Qed.
Lemma uniform_resize_cmd (R : Rust) args : uniform (fun T => resize args).
Proof.
  unfold resize, usage. uni;
    first [apply uniform_resize4
          | apply uniform_resize6].
Qed.
Lemma uniform_enumerate_cmd (R : Rust) args : uniform (fun T => enumerate args).
Proof. unfold enumerate, usage. uni. apply uniform_enumerate. Qed.
Lemma uniform_show_net (R : Rust) args : uniform (fun T => show_net args).
Proof. unfold show_net. uni. apply uniform_specs. Qed.

Lemma c60_same_marks : forall (R : Rust) (args : list str),
  exists ms r, forall T : Terminal, do_main args = (map (paint colors_enabled) ms, r).
Proof.
  intros R args. change (uniform (fun T => do_main args)). unfold do_main, usage, color_test.
  uni; first [apply uniform_minimize | apply uniform_derange | apply uniform_split_cmd | apply uniform_resize_cmd
             | apply uniform_enumerate_cmd | apply uniform_show_net].
Qed.

Lemma c60_same_text : forall (R : Rust) (T T' : Terminal) (args : list str),
  let text := fun es => filter (fun c => negb (Ascii.eqb c "010"%char)) (stdout es) in
  let messages := fun es => flat_map (fun e => match e with EvErr m => [m] | _ => [] end) es in
  let one := @do_main R T args in
  let other := @do_main R T' args in
  text (fst one) = text (fst other) /\ messages (fst one) = messages (fst other) /\ snd one = snd other.
Proof.
  intros R T T' args. cbv zeta. destruct (c60_same_marks R args) as (ms & r & E). rewrite !E. cbn [fst snd].
  split; [|split; [|reflexivity]]; clear.
  - induction ms as [|m ms IH]; [reflexivity|]. unfold stdout in *. cbn [map flat_map]. rewrite !filter_app, IH. f_equal.
    destruct m as [c s|s|m]; [|reflexivity|reflexivity]. cbn [paint].
    destruct (@colors_enabled T), (@colors_enabled T'); try reflexivity; cbn [shown line]; rewrite filter_app; cbn [filter newline Ascii.eqb];
      cbn; now rewrite app_nil_r.
  - induction ms as [|m ms IH]; [reflexivity|]. cbn [map flat_map]. rewrite IH. f_equal.
    destruct m as [c s|s|m]; [|reflexivity|reflexivity]. cbn [paint]. now destruct (@colors_enabled T), (@colors_enabled T').
Qed.

Lemma c60_same_lines_refuted : forall (R : Rust), exists (T T' : Terminal) (args : list str),
  stdout (fst (@do_main R T args)) <> stdout (fst (@do_main R T' args)).
Proof.
  intros R. exists colourful, plain, [lit "ripcalc"; lit "--color-test"]. vm_compute. discriminate.
Qed.

(** ** Running the program *)
Definition gives {T : Terminal} {X : Type} (m : io X) (ms : list mark) (x : X) : Prop :=
  m = (map (paint colors_enabled) ms, Ret x).
Section Gives.
  Context {T : Terminal}.
  Lemma gives_bind {X Y} (m : io X) (f : X -> io Y) ms x ms' y :
    gives m ms x -> gives (f x) ms' y -> gives (io_bind m f) (ms ++ ms') y.
  Proof. unfold gives. intros -> E. unfold io_bind. cbn [fst snd]. rewrite E, map_app. reflexivity. Qed.
  Lemma gives_lift {X Y} (r : res X) (f : X -> io Y) x ms y :
    r = Ret x -> gives (f x) ms y -> gives (io_bind (io_lift r) f) ms y.
  Proof. intros -> E. now rewrite io_lift_ret. Qed.
  Lemma gives_marks (m : io unit) {Y} (f : unit -> io Y) ms ms' y :
    marks m ms -> gives (f tt) ms' y -> gives (io_bind m f) (ms ++ ms') y.
  Proof. apply gives_bind. Qed.
  Lemma gives_says {Y} s (f : unit -> io Y) ms y : gives (f tt) ms y -> gives (io_bind (println s) f) (says s :: ms) y.
  Proof. apply (gives_marks (println s) f [says s]). reflexivity. Qed.
  Lemma gives_error m (z : Z) : gives (eprintln m ;;; io_ret z) [Problem m] z.
  Proof. reflexivity. Qed.
  Lemma gives_ret {X} (x : X) : gives (io_ret x) [] x.
  Proof. reflexivity. Qed.
  Lemma gives_eq {X} (m : io X) ms ms' x : gives m ms x -> ms = ms' -> gives m ms' x.
  Proof. now intros H <-. Qed.
  Lemma gives_last (m : io unit) {X} ms (x : X) : marks m ms -> gives (m ;;; io_ret x) ms x.
  Proof. intros H. rewrite <- (app_nil_r ms). now eapply gives_marks; [exact H|]. Qed.
End Gives.

Lemma does_gives (R : Rust) args ms z : (forall T : Terminal, gives (do_main args) ms z) -> does args ms z.
Proof. intros H T. apply H. Qed.

Section Cases.
  Context (R : Rust).

  Lemma parse_means F s a n : parse_netspec s = Ret (ROk (spec_of F a n)) <-> means F s a n.
  Proof. apply c32_accepts. Qed.
  Lemma parse_nonsense s : nonsense s <-> exists e, parse_netspec s = Ret (RErr e).
  Proof.
    split.
    - intros H. destruct (c31_returns R s) as ([sp|e] & E); [|eauto]. exfalso. destruct sp as [a n|a n].
      + apply (H V4 a n). now apply parse_means.
      + apply (H V6 a n). now apply parse_means.
    - intros (e & E) F a n H. apply parse_means in H. congruence.
  Qed.
  Lemma parse_cases s : (exists F a n, parse_netspec s = Ret (ROk (spec_of F a n)) /\ means F s a n) \/
    (exists e, parse_netspec s = Ret (RErr e) /\ nonsense s).
  Proof.
    destruct (c31_returns R s) as ([sp|e] & E); [left|right].
    - destruct sp as [a n|a n]; [exists V4, a, n|exists V6, a, n]; (split; [exact E|now apply parse_means]).
    - exists e. split; [exact E|]. apply parse_nonsense. eauto.
  Qed.
  Lemma sensible s : ~ nonsense s -> exists F a n, parse_netspec s = Ret (ROk (spec_of F a n)) /\ means F s a n.
  Proof. intros H. destruct (parse_cases s) as [X|(e & _ & X)]; [exact X|contradiction]. Qed.
  Lemma means_wf F s a n : means F s a n -> valid a /\ wf_net n.
  Proof. intros H. apply parse_means in H. now destruct (c31_well_formed R F s a n H) as (Ha & Hn & _). Qed.

  Lemma addr_cases s : (exists F a, parse_addr s = Ret (ROk (parsed_of F a)) /\ address_text F s a) \/
    (exists e, parse_addr s = Ret (RErr e) /\ no_address s).
  Proof.
    destruct (addr_returns s) as ([p|e] & E); [left|right].
    - destruct p as [a|a]; [exists V4, a|exists V6, a]; (split; [exact E|now apply c34_address]).
    - exists e. split; [exact E|]. intros F a H. apply c34_address in H. congruence.
  Qed.
  Lemma addr_valid F s a : address_text F s a -> valid a.
  Proof. intros (_ & H). now apply reads_valid in H. Qed.
End Cases.

Lemma str_eqb_refl s : str_eqb s s = true.
Proof. induction s as [|c s IH]; cbn [str_eqb]; [reflexivity|]. now rewrite Ascii.eqb_refl, IH. Qed.
Lemma str_eqb_eq s t : str_eqb s t = true <-> s = t.
Proof.
  split; [|intros ->; apply str_eqb_refl].
  revert t. induction s as [|c s IH]; intros [|d t]; cbn [str_eqb]; try discriminate; [reflexivity|].
  intros H. apply andb_true_iff in H. destruct H as [H1 H2]. apply Ascii.eqb_eq in H1. now rewrite H1, (IH t H2).
Qed.

(** Which command runs. *)
Section Dispatch.
  Context (R : Rust) (T : Terminal) (prog w : str) (rest : list str).
  Ltac words H := cbn [In] in H; repeat (destruct H as [<-|H]); [..|contradiction]; reflexivity.
  Lemma run_minimize : In w minimize_words -> do_main (prog :: w :: rest) = minimize (prog :: w :: rest).
  Proof. intros H. unfold minimize_words in H. words H. Qed.
  Lemma run_derange : In w derange_words -> do_main (prog :: w :: rest) = derange (prog :: w :: rest).
  Proof. intros H. unfold derange_words in H. words H. Qed.
  Lemma run_split : In w split_words -> do_main (prog :: w :: rest) = Main.split (prog :: w :: rest).
  Proof. intros H. unfold split_words in H. words H. Qed.
  Lemma run_resize : In w resize_words -> do_main (prog :: w :: rest) = resize (prog :: w :: rest).
  Proof. intros H. unfold resize_words in H. words H. Qed.
  Lemma run_enumerate : In w enumerate_words -> do_main (prog :: w :: rest) = enumerate (prog :: w :: rest).
  Proof. intros H. unfold enumerate_words in H. words H. Qed.
  Lemma run_show : ~ In w command_words -> do_main (prog :: w :: rest) = show_net (prog :: w :: rest).
  Proof.
    intros H. unfold do_main.
    assert (forall x, In x command_words -> str_eqb w x = false) as E.
    { intros x Hx. destruct (str_eqb w x) eqn:Ex; [|reflexivity]. apply str_eqb_eq in Ex. now subst x. }
    rewrite !E; [reflexivity|..];
      unfold command_words, minimize_words, derange_words, split_words, resize_words, enumerate_words, other_words; cbn [In app]; tauto.
  Qed.
  Lemma run_cases : In w minimize_words \/ In w derange_words \/ In w split_words \/ In w resize_words \/
    In w enumerate_words \/ w = lit "--color-test" \/ w = lit "--help" \/ ~ In w command_words.
  Proof.
    assert (forall l : list str, In w l \/ ~ In w l) as D.
    { intros l. destruct (in_dec (list_eq_dec ascii_dec) w l); auto. }
    destruct (D command_words) as [H|H]; [|tauto]. unfold command_words in H. rewrite !in_app_iff in H.
    unfold other_words in H. cbn [In] in H. intuition auto.
  Qed.
End Dispatch.

Lemma c62_usage : forall (R : Rust) (args : list str),
  (List.length args < 2)%nat \/
  (exists prog w rest, args = prog :: w :: rest /\
     ((In w derange_words \/ In w resize_words) /\ List.length rest <> 2%nat \/
      In w split_words /\ (List.length rest < 2)%nat \/
      (In w minimize_words \/ In w enumerate_words) /\ rest = [])) ->
  does args [Problem MsgUsage] 1%Z.
Proof.
  intros R args H. apply does_gives. intros T. destruct H as [H|(prog & w & rest & -> & H)].
  - destruct args as [|? [|? ?]]; cbn [List.length] in H; [reflexivity|reflexivity|lia].
  - destruct H as [[[H|H] L]|[[H L]|[[H|H] ->]]].
    + rewrite run_derange by exact H. unfold derange.
      destruct rest as [|? [|? [|? ?]]]; cbn [List.length] in L; [reflexivity|reflexivity|congruence|reflexivity].
    + rewrite run_resize by exact H. unfold resize.
      destruct rest as [|? [|? [|? ?]]]; cbn [List.length] in L; [reflexivity|reflexivity|congruence|reflexivity].
    + rewrite run_split by exact H. unfold Main.split.
      destruct rest as [|? [|? ?]]; cbn [List.length] in L; [reflexivity|reflexivity|lia].
    + rewrite run_minimize by exact H. reflexivity.
    + rewrite run_enumerate by exact H. reflexivity.
Qed.

(** *** show *)
Lemma described_exists (R : Rust) (F : family) (n : net F) a : wf_net n -> (forall x, a = Some x -> valid x) ->
  exists ms, described n a ms /\ forall T : Terminal, marks (show_of F n a) ms.
Proof.
  intros Hn Ha. destruct (c56_report R F n a Hn Ha) as (h & b & k & c & H1 & H2 & H3 & H4 & E).
  exists (report n a h b k c). split; [exists h, b, k, c; auto|exact E].
Qed.

Lemma show_parse_app (R : Rust) ss : forall sps acc,
  Forall2 (fun s sp => parse_netspec s = Ret (ROk sp)) ss sps -> show_parse ss acc = Ret (ROk (acc ++ sps)).
Proof.
  induction ss as [|s ss IH]; intros sps acc H; inversion H; subst; cbn [show_parse].
  - now rewrite app_nil_r.
  - rewrite H2. cbn [bind]. rewrite (IH l') by assumption. now rewrite <- app_assoc.
Qed.
Lemma show_parse_err (R : Rust) pre s post e : forall acc,
  (forall t, In t pre -> ~ nonsense t) -> parse_netspec s = Ret (RErr e) ->
  show_parse (pre ++ s :: post) acc = Ret (RErr e).
Proof.
  induction pre as [|t pre IH]; intros acc Hp E; cbn [app show_parse].
  - rewrite E. reflexivity.
  - destruct (sensible R t) as (F & a & n & Et & _); [apply Hp; now left|]. rewrite Et. cbn [bind].
    apply IH; [|exact E]. intros u Hu. apply Hp. now right.
Qed.

Lemma show_list (R : Rust) ss : (forall s, In s ss -> ~ nonsense s) ->
  exists sps mss, Forall2 (fun s sp => parse_netspec s = Ret (ROk sp)) ss sps /\
    Forall2 (fun s ms => exists F (a : addr F) n, means F s a n /\ described n (Some a) ms) ss mss /\
    forall T : Terminal, marks (show_specs sps true) (spaced mss) /\
      marks (show_specs sps false) (flat_map (fun ms => break :: ms) mss).
Proof.
  induction ss as [|s ss IH]; intros H.
  - exists [], []. split; [constructor|]. split; [constructor|]. intros T. split; reflexivity.
  - destruct IH as (sps & mss & H1 & H2 & H3); [intros t Ht; apply H; now right|].
    destruct (sensible R s) as (F & a & n & E & M); [apply H; now left|].
    destruct (means_wf R F s a n M) as [Va Wn].
    destruct (described_exists R F n (Some a) Wn) as (ms & D & S); [now intros x [= <-]|].
    exists (spec_of F a n :: sps), (ms :: mss).
    split; [constructor; assumption|]. split; [constructor; [|assumption]; now exists F, a, n|].
    intros T. destruct (H3 T) as [_ B]. specialize (S T).
    assert (marks (match spec_of F a n with
             | Spec4 a n => output_ipv4_network n (Some a) | Spec6 a n => output_ipv6_network n (Some a) end) ms) as S'.
    { destruct F; exact S. }
    clear S. cbn [show_specs flat_map]. split.
    + eapply marks_eq; [apply marks_seq; [apply marks_ret|]; apply marks_seq; [exact S'|exact B]|].
      cbn [app spaced]. f_equal. clear. induction mss as [|m mss IH]; [reflexivity|]. cbn [flat_map spaced app].
      f_equal. f_equal. exact IH.
    + eapply marks_eq; [apply marks_seq; [apply marks_break|]; apply marks_seq; [exact S'|exact B]|]. reflexivity.
Qed.

Lemma c62_show : forall (R : Rust) (prog : str) (ss : list str),
  ss <> [] -> (forall w, hd_error ss = Some w -> ~ In w command_words) ->
  (forall s, In s ss -> ~ nonsense s) ->
  exists mss,
    Forall2 (fun s ms => exists F (a : addr F) n, means F s a n /\ described n (Some a) ms) ss mss /\
    does (prog :: ss) (spaced mss) 0%Z.
Proof.
  intros R prog ss Hne Hw H. destruct (show_list R ss H) as (sps & mss & H1 & H2 & H3).
  exists mss. split; [exact H2|]. apply does_gives. intros T. destruct ss as [|w rest]; [congruence|].
  rewrite run_show by now apply Hw. unfold show_net. cbn [tl].
  eapply gives_lift; [apply (show_parse_app R _ sps []); exact H1|]. cbn [app].
  apply gives_last. apply H3.
Qed.

Lemma c62_show_error : forall (R : Rust) (prog : str) (pre post : list str) (s : str),
  (forall w, hd_error (pre ++ s :: post) = Some w -> ~ In w command_words) ->
  (forall t, In t pre -> ~ nonsense t) -> nonsense s ->
  exists e, parse_netspec s = Ret (RErr e) /\
    does (prog :: pre ++ s :: post) [Problem (MsgError e)] 1%Z.
Proof.
  intros R prog pre post s Hw Hp Hs. apply (parse_nonsense R) in Hs. destruct Hs as (e & E). exists e. split; [exact E|].
  apply does_gives. intros T.
  destruct (pre ++ s :: post) as [|w rest] eqn:Es; [now destruct pre|].
  rewrite run_show by now apply Hw. unfold show_net. cbn [tl]. rewrite <- Es.
  eapply gives_lift; [apply (show_parse_err R pre s post e []); assumption|]. apply gives_error.
Qed.

(** *** enumerate *)
(** Printing while enumerating is enumerating and then printing. *)
Lemma print_addrs_loop {A : Type} (R : Rust) {I : IpAddress A} k : forall (it : network_iter A) acc,
  (forall it' acc', loop enumerate_step k (it, acc) = Ret (inl (it', acc')) ->
     exists l, acc' = rev l ++ acc /\ io_loop print_addrs_step k it = (map (fun a => line (display a)) l, Ret (inl it'))) /\
  (forall r, loop enumerate_step k (it, acc) = Ret (inr r) ->
     exists l, r = rev acc ++ l /\ io_loop print_addrs_step k it = (map (fun a => line (display a)) l, Ret (inr tt))).
Proof.
  induction k as [|k IH]; intros it acc; cbn [loop io_loop].
  - unfold enumerate_step, print_addrs_step. destruct (iter_next it) as [[[a|] it1]| |]; cbn [bind io_lift io_bind fst snd].
    + split; intros * E; inversion E; subst. exists [a]. split; reflexivity.
    + split; intros * E; inversion E; subst. exists []. now rewrite app_nil_r.
    + split; intros * E; discriminate.
    + split; intros * E; discriminate.
  - destruct (loop enumerate_step k (it, acc)) as [[[it1 acc1]|r1]| |] eqn:E1; cbn [bind]; try (split; intros * E; discriminate).
    + destruct (proj1 (IH it acc) it1 acc1 E1) as (l & -> & E). rewrite E. unfold io_bind. cbn [snd fst].
      destruct (IH it1 (rev l ++ acc)) as [H1 H2]. split.
      * intros it' acc' E2. destruct (H1 _ _ E2) as (l' & -> & ->). exists (l ++ l'). cbn [fst snd].
        now rewrite rev_app_distr, app_assoc, map_app.
      * intros r E2. destruct (H2 _ E2) as (l' & -> & ->). exists (l ++ l'). cbn [fst snd].
        now rewrite rev_app_distr, rev_involutive, <- app_assoc, map_app.
    + destruct (proj2 (IH it acc) r1 E1) as (l & -> & E). rewrite E. unfold io_bind. cbn [snd fst io_ret]. split; intros * E2; inversion E2; subst.
      exists l. now rewrite app_nil_r.
Qed.
Lemma print_addrs_lines {A : Type} {R : Rust} {I : IpAddress A} (n : network A) l :
  enumerate_net n = Ret l -> print_addrs n = io_for l (fun a => println (display a)).
Proof.
  unfold enumerate_net, print_addrs, while, io_while. generalize fuel_doublings. intros k.
  destruct (iter_new n) as [it| |]; cbn [bind]; try discriminate. destruct (loop enumerate_step k (it, [])) as [[s|r]| |] eqn:E; cbn [bind]; try discriminate.
  intros E'. inversion E'; subst r. destruct (proj2 (print_addrs_loop R k it []) l E) as (l' & -> & E2). cbn [rev List.app].
  unfold io_bind. cbn [io_lift snd fst]. rewrite E2. cbn [fst snd io_ret List.app]. rewrite app_nil_r. clear.
  induction l' as [|a l IH]; [reflexivity|]. cbn [map io_for]. rewrite <- IH. reflexivity.
Qed.
Lemma marks_lines {T : Terminal} {X} (l : list X) (f : X -> str) :
  marks (io_for l (fun x => println (f x))) (map (fun x => says (f x)) l).
Proof.
  replace (map (fun x => says (f x)) l) with (flat_map (fun x => [says (f x)]) l)
    by (induction l as [|x l IH]; cbn [flat_map map app]; [reflexivity|now rewrite IH]).
  apply marks_for. intros x _. reflexivity.
Qed.

Lemma enumerate_list (R : Rust) ss : forall z0 : Z, exists mss z,
    Forall2 (fun s ms =>
      (exists F (a : addr F) n l, means F s a n /\
         (forall x, In x l <-> valid x /\ member n x) /\
         StronglySorted (fun x y : addr F => value x < value y) l /\
         ms = map (fun x => says (display x)) l) \/
      (nonsense s /\ exists e, parse_netspec s = Ret (RErr e) /\ ms = [Problem (MsgNetwork s e)])) ss mss /\
    (z = z0 /\ (forall s, In s ss -> ~ nonsense s) \/ z = 1%Z /\ exists s, In s ss /\ nonsense s) /\
    forall T : Terminal, gives (enumerate_loop ss z0) (List.concat mss) z.
Proof.
  induction ss as [|s ss IH]; intros z0.
  - exists [], z0. split; [constructor|]. split; [left; split; [reflexivity|intros s []]|]. reflexivity.
  - destruct (parse_cases R s) as [(F & a & n & E & M)|(e & E & N)].
    + destruct (IH z0) as (mss & z & H1 & H2 & H3). destruct (means_wf R F s a n M) as [Va Wn].
      destruct (c55_lists_exactly R F n Wn) as (l & El & Hl & Sl).
      exists (map (fun x => says (display x)) l :: mss), z. split; [constructor; [left; exists F, a, n, l; auto|assumption]|].
      split.
      * destruct H2 as [[-> H2]|[-> (t & Ht & Nt)]]; [left|right].
        -- split; [reflexivity|]. intros t [<-|Ht]; [|now apply H2]. intros N. now apply (N F a n).
        -- split; [reflexivity|]. exists t. split; [now right|assumption].
      * intros T. cbn [enumerate_loop List.concat]. eapply gives_lift; [exact E|].
        assert (forall k : io Z, gives k (List.concat mss) z -> gives (print_addrs n ;;; k) (map (fun x => says (display x)) l ++ List.concat mss) z) as K.
        { intros k Hk. eapply gives_marks; [|exact Hk]. rewrite (print_addrs_lines n l El). apply marks_lines. }
        destruct F; cbn [spec_of]; apply K, H3.
    + destruct (IH 1%Z) as (mss & z & H1 & H2 & H3).
      exists ([Problem (MsgNetwork s e)] :: mss), z. split; [constructor; [right; split; [assumption|eauto]|assumption]|].
      split.
      * right. split; [destruct H2 as [[-> _]|[-> _]]; reflexivity|]. exists s. split; [now left|assumption].
      * intros T. cbn [enumerate_loop List.concat]. eapply gives_lift; [exact E|]. cbv beta iota.
        eapply (gives_marks (eprintln (MsgNetwork s e)) _ [_]); [reflexivity|apply H3].
Qed.

Lemma c62_enumerate : forall (R : Rust) (prog w : str) (ss : list str),
  In w enumerate_words -> ss <> [] ->
  exists mss z,
    Forall2 (fun s ms =>
      (exists F (a : addr F) n l, means F s a n /\
         (forall x, In x l <-> valid x /\ member n x) /\
         StronglySorted (fun x y : addr F => value x < value y) l /\
         ms = map (fun x => says (display x)) l) \/
      (nonsense s /\ exists e, parse_netspec s = Ret (RErr e) /\ ms = [Problem (MsgNetwork s e)])) ss mss /\
    (z = 0%Z /\ (forall s, In s ss -> ~ nonsense s) \/ z = 1%Z /\ exists s, In s ss /\ nonsense s) /\
    does (prog :: w :: ss) (List.concat mss) z.
Proof.
  intros R prog w ss Hw Hne. destruct (enumerate_list R ss 0%Z) as (mss & z & H1 & H2 & H3).
  exists mss, z. split; [exact H1|]. split; [exact H2|]. apply does_gives. intros T.
  rewrite run_enumerate by exact Hw. unfold enumerate. destruct ss as [|s ss]; [congruence|]. cbn [List.length Nat.ltb Nat.leb skipn].
  apply H3.
Qed.

Lemma marks_lift {T : Terminal} {X} (r : res X) (f : X -> io unit) x ms :
  r = Ret x -> marks (f x) ms -> marks (io_bind (io_lift r) f) ms.
Proof. intros -> H. now rewrite io_lift_ret. Qed.

(** *** minimize *)
Lemma c62_minimize : forall (R : Rust) (F : family) (prog w : str) (ss : list str) (l : list (addr F * net F)),
  In w minimize_words -> ss <> [] -> Forall2 (fun s an => means F s (fst an) (snd an)) ss l ->
  exists r, minimize_subnets (map snd l) = Ret r /\
    does (prog :: w :: ss) (map (fun n => says (net_display n)) r) 0%Z.
Proof.
  intros R F prog w ss l Hw Hne H.
  assert (parse_same_family_netspecs ss = Ret (ROk (specs_of F l))) as E.
  { apply c33_accepts. split; [exact Hne|]. clear -H. induction H; constructor; [now apply parse_means|assumption]. }
  assert (Forall wf_net (map snd l)) as W.
  { clear -H R. induction H as [|s [a n] ss l M H IH]; cbn [map]; [constructor|]. constructor; [|exact IH].
    now apply (means_wf R F s a n). }
  destruct (c40_returns R F _ W) as (r & Er & _). exists r. split; [exact Er|].
  apply does_gives. intros T. rewrite run_minimize by exact Hw. unfold minimize.
  destruct ss as [|s ss]; [congruence|]. cbn [List.length Nat.ltb Nat.leb skipn].
  eapply gives_lift; [exact E|].
  destruct F; cbn [specs_of]; (eapply gives_lift; [exact Er|]); apply gives_last, marks_lines.
Qed.

Lemma c62_minimize_error : forall (R : Rust) (F : family) (prog w : str) (pre post : list str) (s : str),
  In w minimize_words -> Forall (of_family F) pre ->
  (nonsense s -> exists e, parse_netspec s = Ret (RErr e) /\
     does (prog :: w :: pre ++ s :: post) [Problem (MsgParsing e)] 1%Z) /\
  (pre <> [] -> forall G, G <> F -> of_family G s -> does (prog :: w :: pre ++ s :: post) [Problem MsgMixing] 1%Z).
Proof.
  intros R F prog w pre post s Hw Hp.
  assert (forall G ss, Forall (of_family G) ss -> Forall (fun t => exists (a : addr G) n, parse_netspec t = Ret (ROk (spec_of G a n))) ss) as P.
  { intros G ss K. eapply Forall_impl; [|exact K]. intros t (a & n & M). exists a, n. now apply parse_means. }
  split.
  - intros Hs. apply (parse_nonsense R) in Hs. destruct Hs as (e & E). exists e. split; [exact E|].
    apply does_gives. intros T. rewrite run_minimize by exact Hw. unfold minimize.
    replace (Nat.ltb _ 3) with false by (symmetry; apply Nat.ltb_ge; cbn [List.length]; rewrite app_length; cbn [List.length]; lia).
    cbn [skipn]. eapply gives_lift; [apply c33_first_error; exists F, pre, s, post; split; [reflexivity|]; split; [exact E|]; now apply P|].
    apply gives_error.
  - intros Hne G HG (a & n & M). apply does_gives. intros T. rewrite run_minimize by exact Hw. unfold minimize.
    replace (Nat.ltb _ 3) with false by (symmetry; apply Nat.ltb_ge; cbn [List.length]; rewrite app_length; cbn [List.length]; lia).
    cbn [skipn]. eapply gives_lift.
    + apply c33_mixed. exists F, G, pre, s, post. split; [congruence|]. split; [exact Hne|]. split; [reflexivity|].
      split; [exists a, n; now apply parse_means|now apply P].
    + apply gives_error.
Qed.

(** *** derange *)
Lemma c62_derange : forall (R : Rust) (F : family) (prog w s t : str) (a b : addr F),
  In w derange_words -> address_text F s a -> address_text F t b ->
  N.max (value a) (value b) <> top F ->
  exists r, range_to_subnets a b = Ret r /\
    does [prog; w; s; t] (map (fun n => says (net_display n)) r) 0%Z.
Proof.
  intros R F prog w s t a b Hw Ha Hb Ht. pose proof (addr_valid F s a Ha) as Va. pose proof (addr_valid F t b Hb) as Vb.
  destruct (proj2 (c37_returns_iff R F a b Va Vb) Ht) as (r & Er). exists r. split; [exact Er|].
  apply does_gives. intros T. rewrite run_derange by exact Hw. unfold derange.
  eapply gives_lift; [apply c34_address; exact Ha|]. eapply gives_lift; [apply c34_address; exact Hb|].
  destruct F; cbn [parsed_of version N.eqb Pos.eqb negb]; apply gives_last; (eapply marks_lift; [exact Er|]); apply marks_lines.
Qed.

Lemma c62_derange_error : forall (R : Rust) (F G : family) (prog w s t : str) (a : addr F) (b : addr G),
  In w derange_words ->
  (no_address s -> exists e, parse_addr s = Ret (RErr e) /\ does [prog; w; s; t] [Problem (MsgFirstAddr e)] 1%Z) /\
  (address_text F s a -> no_address t ->
     exists e, parse_addr t = Ret (RErr e) /\ does [prog; w; s; t] [Problem (MsgSecondAddr e)] 1%Z) /\
  (address_text F s a -> address_text G t b -> F <> G -> does [prog; w; s; t] [Problem MsgVersions] 1%Z).
Proof.
  intros R F G prog w s t a b Hw. split; [|split].
  - intros Hs. destruct (addr_cases s) as [(F' & a' & _ & A)|(e & E & _)]; [now destruct (Hs F' a')|].
    exists e. split; [exact E|]. apply does_gives. intros T. rewrite run_derange by exact Hw. unfold derange.
    eapply gives_lift; [exact E|]. apply gives_error.
  - intros Ha Ht. destruct (addr_cases t) as [(F' & a' & _ & A)|(e & E & _)]; [now destruct (Ht F' a')|].
    exists e. split; [exact E|]. apply does_gives. intros T. rewrite run_derange by exact Hw. unfold derange.
    eapply gives_lift; [apply c34_address; exact Ha|]. eapply gives_lift; [exact E|]. apply gives_error.
  - intros Ha Hb HF. apply does_gives. intros T. rewrite run_derange by exact Hw. unfold derange.
    eapply gives_lift; [apply c34_address; exact Ha|]. eapply gives_lift; [apply c34_address; exact Hb|].
    destruct F, G; try congruence; cbn [parsed_of version N.eqb Pos.eqb negb]; apply gives_error.
Qed.

(** *** resize *)
Lemma does_app (ms : list mark) : ms ++ [] = ms.
Proof. apply app_nil_r. Qed.

Lemma described_list (R : Rust) (F : family) (l : list (net F)) : Forall wf_net l ->
  exists mss, Forall2 (fun e ms => described e None ms) l mss /\
    Forall2 (fun e ms => forall T : Terminal, marks (show_of F e None) ms) l mss.
Proof.
  induction 1 as [|n l Hn H (mss & H1 & H2)]; [exists []; split; constructor|].
  destruct (described_exists R F n None Hn) as (ms & D & S); [discriminate|].
  exists (ms :: mss). split; constructor; assumption.
Qed.

Lemma marks_subnets {T : Terminal} {F : family} (out : net F -> option (addr F) -> io unit) l mss :
  Forall2 (fun e ms => marks (out e None) ms) l mss -> forall k : nat,
  marks (output_subnets (N.of_nat k) l out)
    (flat_map (fun im => says (lit "Subnet " ++ fmt_dec (N.of_nat (fst im)) ++ lit ":") :: snd im ++ [break])
       (combine (seq (S k) (List.length mss)) mss)).
Proof.
  induction 1 as [|e ms l mss H H' IH]; intros k; cbn [output_subnets List.length seq combine flat_map]; [apply marks_ret|].
  replace (N.of_nat k + 1) with (N.of_nat (S k)) by lia. cbn [fst snd].
  eapply marks_eq; [eapply marks_seq; [apply marks_println|]; eapply marks_seq; [exact H|];
    eapply marks_seq; [apply marks_println|]; apply IH|].
  cbn [app]. f_equal. rewrite <- app_assoc. reflexivity.
Qed.

Lemma resize_spec (R : Rust) (F : family) (n : net F) (m : addr F) : wf_net n -> valid m ->
  exists r o, resize_network n m = Ret (r, o) /\ Forall wf_net r /\ (o <> Gt -> exists e, r = [e]).
Proof.
  intros Hn Hm. destruct (N.lt_total (host_bits (subnet_mask n)) (host_bits m)) as [H|[H|H]].
  - destruct (c52_supernet R F n m Hn Hm H) as (n' & E & W & _). exists [n'], Lt. split; [exact E|]. split; [constructor; [exact W|constructor]|eauto].
  - destruct (c54_same_size R F n m Hn Hm (eq_sym H)) as (n' & E & W & _). exists [n'], Eq. split; [exact E|]. split; [constructor; [exact W|constructor]|eauto].
  - destruct (c53_subnets R F n m Hn Hm H) as (l & E & _ & W & _). exists l, Gt. split; [exact E|]. split; [|congruence].
    eapply Forall_impl; [|exact W]. now intros e [We _].
Qed.

Transparent resize_and_output.
Lemma resize_io (R : Rust) (F : family) (n : net F) (m : addr F) : wf_net n -> valid m ->
  exists r o first mss, resize_network n m = Ret (r, o) /\
    described n None first /\ Forall2 (fun e ms => described e None ms) r mss /\
    forall T : Terminal, marks (resize_and_output n m (show_of F)) (resize_marks first o mss).
Proof.
  intros Hn Hm. destruct (resize_spec R F n m Hn Hm) as (r & o & E & W & One).
  destruct (described_exists R F n None Hn) as (first & D & S); [discriminate|].
  destruct (described_list R F r W) as (mss & D' & S').
  exists r, o, first, mss. split; [exact E|]. split; [exact D|]. split; [exact D'|]. intros T.
  unfold resize_and_output. eapply marks_lift; [exact E|]. cbv beta iota.
  unfold resize_marks. apply (marks_seq (println _) _ [says _]); [apply marks_println|]. apply marks_seq; [apply S|].
  apply (marks_seq (println []) _ [break]); [apply marks_break|].
  assert (Forall2 (fun e ms => marks (show_of F e None) ms) r mss) as S'' by (clear -S'; induction S'; constructor; auto).
  destruct o.
  - destruct (One ltac:(discriminate)) as (e & ->). inversion S'' as [|e' ms l' mss' He Hl Ee Em]; subst. inversion Hl; subst.
    cbn [List.length seq combine flat_map snd]. rewrite app_nil_r. apply (marks_seq (println _) _ [says _]); [apply marks_println|].
    eapply marks_lift; [reflexivity|]. apply marks_seq; [exact He|apply marks_break].
  - destruct (One ltac:(discriminate)) as (e & ->). inversion S'' as [|e' ms l' mss' He Hl Ee Em]; subst. inversion Hl; subst.
    cbn [List.length seq combine flat_map snd]. rewrite app_nil_r. apply (marks_seq (println _) _ [says _]); [apply marks_println|].
    eapply marks_lift; [reflexivity|]. apply marks_seq; [exact He|apply marks_break].
  - apply (marks_subnets (show_of F) r mss S'' 0).
Qed.

Opaque resize_and_output.
Lemma mask_of_prefix (R : Rust) (F : family) (p : N) (m : addr F) : p <= width F -> valid m -> value m = prefix_mask F p ->
  from_bytes (subnet_mask_bytes_from_prefix p (match F with V4 => 4 | V6 => 16 end)) = Some m.
Proof.
  intros Hp Vm E. destruct (from_mask_bytes (A := addr F) p) as (m' & Em & Om & Eb).
  assert (m' = m) as ->.
  { apply value_inj; [now apply valid_ok|exact Vm|]. rewrite E. apply mask_value; [now apply valid_ok|exact Hp|].
    rewrite width_W in Hp. now rewrite Nat.min_l in Eb by lia. }
  destruct F; exact Em.
Qed.

Lemma subnet_mask_text (R : Rust) (F : family) t (m : addr F) : mask_text F t m ->
  valid m /\ (parse_subnet t = Ret (ROk (match F return addr F -> parsed_subnet with V4 => PSMask4 | V6 => PSMask6 end m)) \/
   exists p, parse_subnet t = Ret (ROk (PSCidr p)) /\ p <= width F /\
     from_bytes (subnet_mask_bytes_from_prefix p (match F with V4 => 4 | V6 => 16 end)) = Some m).
Proof.
  intros [(Hne & H)|(p & Hw & Hp & Vm & E)].
  - split; [now apply (addr_valid F t m)|]. left. destruct F; apply c34_subnet; [exact H|split; assumption].
  - split; [exact Vm|]. right. exists p. split; [|split; [exact Hp|now apply (mask_of_prefix R)]].
    apply c34_subnet. split; [exact Hw|]. eapply N.le_lt_trans; [exact Hp|apply width_usize].
Qed.

Lemma c62_resize : forall (R : Rust) (F : family) (prog w s t : str) (a : addr F) (n : net F) (m : addr F),
  In w resize_words -> means F s a n -> mask_text F t m ->
  exists r o first mss, resize_network n m = Ret (r, o) /\
    described n None first /\ Forall2 (fun e ms => described e None ms) r mss /\
    does [prog; w; s; t] (resize_marks first o mss) 0%Z.
Proof.
  intros R F prog w s t a n m Hw Hs Ht. destruct (means_wf R F s a n Hs) as [Va Wn].
  destruct (subnet_mask_text R F t m Ht) as [Vm Pt].
  destruct (resize_io R F n m Wn Vm) as (r & o & first & mss & E & D & D' & S).
  exists r, o, first, mss. split; [exact E|]. split; [exact D|]. split; [exact D'|].
  apply does_gives. intros T. specialize (S T). rewrite run_resize by exact Hw. unfold resize. apply (parse_means R) in Hs.
  eapply gives_lift; [exact Hs|].
  destruct F; cbn [spec_of]; destruct Pt as [Pt|(p & Pt & Hp & Ep)]; (eapply gives_lift; [exact Pt|]); cbv beta iota.
  - apply gives_last. exact S.
  - rewrite (proj2 (N.ltb_ge 32 p) Hp). eapply gives_lift; [exact (f_equal unwrap Ep)|]. apply gives_last. exact S.
  - apply gives_last. exact S.
  - rewrite (proj2 (N.ltb_ge 128 p) Hp). eapply gives_lift; [exact (f_equal unwrap Ep)|]. apply gives_last. exact S.
Qed.

Lemma c62_resize_error : forall (R : Rust) (F : family) (prog w s t : str) (a : addr F) (n : net F),
  In w resize_words ->
  (nonsense s -> exists e, parse_netspec s = Ret (RErr e) /\ does [prog; w; s; t] [Problem (MsgNetspec s e)] 1%Z) /\
  (means F s a n -> no_address t -> (forall p, p < 2 ^ usize_bits -> ~ written 10 t p) ->
     exists e, parse_subnet t = Ret (RErr e) /\ does [prog; w; s; t] [Problem (MsgSubnet t e)] 1%Z) /\
  (means F s a n -> forall p, written 10 t p -> width F < p < 2 ^ usize_bits ->
     does [prog; w; s; t] [Problem (MsgCidrMax p (width F))] 1%Z) /\
  (means F s a n -> forall G (m : addr G), G <> F -> address_text G t m ->
     does [prog; w; s; t] [Problem (match F with V4 => MsgMask6ForNet4 | V6 => MsgMask4ForNet6 end)] 1%Z).
Proof.
  intros R F prog w s t a n Hw. split; [|split; [|split]].
  - intros Hs. apply (parse_nonsense R) in Hs. destruct Hs as (e & E). exists e. split; [exact E|].
    apply does_gives. intros T. rewrite run_resize by exact Hw. unfold resize. eapply gives_lift; [exact E|]. apply gives_error.
  - intros Hs Ha Hn. destruct (proj2 (c34_returns R t)) as ([[p|m|m]|e] & E).
    + exfalso. apply c34_subnet in E. now apply (Hn p).
    + exfalso. apply c34_subnet in E. apply (Ha V4 m). split; [|exact E]. intros ->. now apply reads4_chars in E.
    + exfalso. apply c34_subnet in E. now apply (Ha V6 m).
    + exists e. split; [exact E|]. apply does_gives. intros T. rewrite run_resize by exact Hw. unfold resize.
      apply (parse_means R) in Hs. eapply gives_lift; [exact Hs|].
      destruct F; cbn [spec_of]; (eapply gives_lift; [exact E|]); apply gives_error.
  - intros Hs p Hp Hr. apply does_gives. intros T. rewrite run_resize by exact Hw. unfold resize.
    apply (parse_means R) in Hs. eapply gives_lift; [exact Hs|].
    assert (parse_subnet t = Ret (ROk (PSCidr p))) as E by (apply c34_subnet; tauto).
    destruct F; cbn [spec_of]; (eapply gives_lift; [exact E|]); cbv beta iota.
    + rewrite (proj2 (N.ltb_lt 32 p) (proj1 Hr)). apply gives_error.
    + rewrite (proj2 (N.ltb_lt 128 p) (proj1 Hr)). apply gives_error.
  - intros Hs G m HG (Hne & Hm). apply does_gives. intros T. rewrite run_resize by exact Hw. unfold resize.
    apply (parse_means R) in Hs. eapply gives_lift; [exact Hs|].
    destruct F, G; try congruence; cbn [spec_of].
    + eapply gives_lift; [apply (proj1 (c34_subnet _ t) m); now split|]. apply gives_error.
    + eapply gives_lift; [apply (proj1 (proj2 (c34_subnet _ t)) m); exact Hm|]. apply gives_error.
Qed.

(** ** C63 *)
Definition no_underscores (s : str) : str := filter (fun x => negb (Ascii.eqb x "_")) s.

Lemma big_digits_numeral s : forall acc, big_digits acc s =
  match numeral_from 10 acc (no_underscores s) with Some k => ROk k | None => RErr IE_InvalidDigit end.
Proof.
  induction s as [|c s IH]; intros acc; [reflexivity|]. unfold no_underscores in *. cbn [big_digits filter].
  destruct (Ascii.eqb c "_"); cbn [negb]; [apply IH|]. cbn [numeral_from]. rewrite to_digit_below by now left.
  destruct (digit_below 10 c) as [d|]; [|reflexivity]. apply IH.
Qed.

Definition digits_text (s : str) (k : N) : Prop :=
  hd_error s <> Some "_"%char /\ numeral 10 (no_underscores s) = Some k.

Lemma digits_text_spec s k :
  match s with [] => RErr IE_Empty | c :: _ => if Ascii.eqb c "_" then RErr IE_InvalidDigit else big_digits 0 s end = ROk k <-> digits_text s k.
Proof.
  unfold digits_text. destruct s as [|c s]; [split; [discriminate|now intros [_ H]]|]. cbn [hd_error].
  destruct (Ascii.eqb_spec c "_") as [->|Hc].
  - split; [discriminate|]. now intros [H _].
  - rewrite big_digits_numeral. unfold no_underscores. cbn [filter]. apply Ascii.eqb_neq in Hc. rewrite Hc. cbn [negb numeral].
    apply Ascii.eqb_neq in Hc. destruct (numeral_from 10 0 _) as [j|].
    + split; [intros E; split; congruence|intros [_ E]; congruence].
    + split; [discriminate|]. now intros [_ E].
Qed.

Lemma digits_text_head c s k : digits_text (c :: s) k -> digit c <> None.
Proof.
  intros [H E] D. cbn [hd_error] in H. unfold no_underscores in E. cbn [filter] in E.
  destruct (Ascii.eqb_spec c "_") as [->|Hc]; [congruence|]. cbn [negb] in E. now rewrite numeral_sign in E.
Qed.

Lemma biguint_spec s k : parse_biguint s = ROk k <-> digits_text s k \/ exists t, s = "+"%char :: t /\ digits_text t k.
Proof.
  unfold parse_biguint. cbv zeta. destruct s as [|c s].
  - split; [discriminate|]. intros [[_ H]|(t & H & _)]; discriminate.
  - destruct (Ascii.eqb_spec c "+") as [->|Hc]; cbn [andb].
    + assert (~ digits_text ("+"%char :: s) k) as Np by (intros H; now apply digits_text_head in H).
      destruct (starts_with_char "+" s) eqn:Es; cbn [negb].
      * transitivity (digits_text ("+"%char :: s) k); [apply (digits_text_spec ("+"%char :: s) k)|]. split; [tauto|]. intros [H|(t & [= <-] & H)]; [exact H|exfalso].
        destruct s as [|d s]; [discriminate|]. cbn [starts_with_char] in Es. apply Ascii.eqb_eq in Es. subst d.
        now apply digits_text_head in H.
      * transitivity (digits_text s k); [apply (digits_text_spec s k)|]. split; [right; now exists s|]. intros [H|(t & [= <-] & H)]; [contradiction|exact H].
    + transitivity (digits_text (c :: s) k); [apply (digits_text_spec (c :: s) k)|]. split; [now left|]. intros [H|(t & [= -> _] & _)]; [exact H|congruence].
Qed.

Lemma c63_host_count : forall (s : str) (c : Z), parse_bigint s = ROk c <-> count_text s c.
Proof.
  intros s c.
  transitivity ((exists k, (digits_text s k \/ exists t, s = "+"%char :: t /\ digits_text t k) /\ c = Z.of_N k) \/
    exists t k, s = "-"%char :: t /\ digits_text t k /\ c = (- Z.of_N k)%Z).
  - destruct s as [|x s].
    + split; [discriminate|]. intros [(k & [[_ H]|(t & H & _)] & _)|(t & k & H & _)]; discriminate.
    + cbn [parse_bigint]. destruct (Ascii.eqb_spec x "-") as [->|Hx].
      * assert (forall k, ~ digits_text ("-"%char :: s) k) as Nm by (intros k H; now apply digits_text_head in H).
        destruct (starts_with_char "+" s) eqn:Es.
        -- destruct (parse_biguint ("-"%char :: s)) as [k|err] eqn:E; cbn [rbind].
           { exfalso. apply biguint_spec in E. destruct E as [E|(t & [=] & _)]. now apply Nm in E. }
           split; [discriminate|]. intros [(k & [H|(t & [=] & _)] & _)|(t & k & [= <-] & H & _)]; exfalso; [now apply Nm in H|].
           destruct s as [|d s]; [discriminate|]. cbn [starts_with_char] in Es. apply Ascii.eqb_eq in Es. subst d.
           now apply digits_text_head in H.
        -- destruct (parse_biguint s) as [k|err] eqn:E; cbn [rbind].
           ++ apply biguint_spec in E. destruct E as [E|(t & -> & _)]; [|discriminate]. split.
              ** intros [= <-]. right. exists s, k. auto.
              ** intros [(j & [H|(t & [=] & _)] & _)|(t & j & [= <-] & H & ->)]; [now apply Nm in H|].
                 destruct E as [_ E], H as [_ H]. now replace j with k by congruence.
           ++ split; [discriminate|].
              intros [(j & [H|(t & [=] & _)] & _)|(t & j & [= <-] & H & ->)]; [now apply Nm in H|].
              assert (parse_biguint s = ROk j) by (apply biguint_spec; now left). congruence.
      * destruct (parse_biguint (x :: s)) as [k|err] eqn:E; cbn [rbind].
        -- split.
           ++ intros [= <-]. left. exists k. split; [now apply biguint_spec|reflexivity].
           ++ intros [(j & H & ->)|(t & j & [= -> _] & _)]; [|congruence]. apply biguint_spec in H. congruence.
        -- split; [discriminate|]. intros [(j & H & ->)|(t & j & [= -> _] & _)]; [|congruence]. apply biguint_spec in H. congruence.
  - unfold count_text. split.
    + intros [(k & [H|(t & -> & H)] & ->)|(t & k & -> & H & ->)].
      * exists [], s, k. split; [reflexivity|]. split; [apply H|]. split; [apply H|]. left. split; [now left|reflexivity].
      * exists (lit "+"), t, k. split; [reflexivity|]. split; [apply H|]. split; [apply H|]. left. split; [right; now left|reflexivity].
      * exists (lit "-"), t, k. split; [reflexivity|]. split; [apply H|]. split; [apply H|]. now right.
    + intros (g & t & k & -> & H1 & H2 & H). destruct H as [[[<-|[<-|[]]] ->]|[-> ->]].
      * left. exists k. split; [left; now split|reflexivity].
      * left. exists k. split; [right; exists t; split; [reflexivity|now split]|reflexivity].
      * right. exists t, k. split; [reflexivity|]. now split.
Qed.

Lemma c63_host_count_error : forall (s : str) (e : int_error),
  parse_bigint s = RErr e <-> (forall c, ~ count_text s c) /\ e = count_problem s.
Proof.
  intros s e. destruct (parse_bigint s) as [c|e'] eqn:E.
  - split; [discriminate|]. intros [N _]. apply c63_host_count in E. now apply N in E.
  - assert (forall c, ~ count_text s c) as N by (intros c H; apply c63_host_count in H; congruence).
    assert (e' = count_problem s) as ->; [|split; [intros [= <-]; now split|intros [_ ->]; reflexivity]].
    assert (forall t, (forall k, big_digits 0 t <> ROk k) -> big_digits 0 t = RErr IE_InvalidDigit) as Bd.
    { intros t Ht. rewrite big_digits_numeral in *. destruct (numeral_from 10 0 _) as [k|]; [now destruct (Ht k)|reflexivity]. }
    assert (forall t err, parse_biguint t = RErr err -> t <> [] -> t <> lit "+" -> err = IE_InvalidDigit) as Bu.
    { intros t err Et N1 N2. unfold parse_biguint in Et. cbv zeta in Et.
      destruct t as [|c t]; [congruence|]. destruct (Ascii.eqb_spec c "+") as [->|Hc]; cbn [andb] in Et.
      - destruct t as [|d t]; [now destruct N2|]. cbn [starts_with_char] in Et.
        destruct (Ascii.eqb_spec d "+") as [->|Hd]; cbn [negb] in Et.
        + change (Ascii.eqb "+" "_") with false in Et. cbv iota in Et. rewrite Bd in Et; [congruence|congruence].
        + destruct (Ascii.eqb d "_"); [congruence|]. rewrite Bd in Et; [congruence|congruence].
      - destruct (Ascii.eqb c "_"); [congruence|]. rewrite Bd in Et; [congruence|congruence]. }
    unfold count_problem. destruct s as [|x s]; [now injection E as <-|]. cbn [parse_bigint] in E.
    destruct (Ascii.eqb_spec x "-") as [->|Hx].
    + destruct s as [|d s]; [now injection E as <-|]. cbn [starts_with_char existsb str_eqb] in *. cbn.
      destruct (Ascii.eqb_spec d "+") as [->|Hd].
      * destruct (parse_biguint _) as [k|err] eqn:Eb; [discriminate|]. cbn [rbind] in E. injection E as <-.
        apply Bu in Eb; [exact Eb|discriminate|discriminate].
      * destruct (parse_biguint _) as [k|err] eqn:Eb; [discriminate|]. cbn [rbind] in E. injection E as <-.
        apply Bu in Eb; [exact Eb|discriminate|intros [= -> _]; now destruct Hd].
    + destruct (parse_biguint _) as [k|err] eqn:Eb; [discriminate|]. cbn [rbind] in E. injection E as <-.
      destruct (existsb _ _) eqn:Ex.
      * apply existsb_exists in Ex. destruct Ex as (y & [<-|[<-|[<-|[]]]] & Hy); apply str_eqb_eq in Hy; [discriminate| |now injection Hy].
        injection Hy as -> ->. now injection Eb as <-.
      * apply Bu in Eb; [exact Eb|discriminate|]. intros Hs. rewrite Hs in Ex. discriminate.
Qed.

(** *** split *)
Lemma report_marks {T : Terminal} {F : family} (out : net F -> option (addr F) -> io unit) n first :
  marks (out n None) first -> forall cs r mss, Forall2 (fun e ms => marks (out e None) ms) r mss ->
  split_report out n cs r = map (paint colors_enabled) (split_marks first cs mss).
Proof.
  intros H cs r mss H2. unfold split_report, split_marks. rewrite H. cbn [fst app map]. f_equal. rewrite map_app. f_equal.
  cbn [map app]. f_equal. revert cs. induction H2 as [|e ms r mss He H2 IH]; intros [|c cs]; cbn [combine flat_map map]; try reflexivity.
  rewrite IH. cbn [fst snd]. rewrite He. cbn [fst]. rewrite map_app. cbn [map app]. f_equal. rewrite map_app. reflexivity.
Qed.

Lemma split_io (R : Rust) (F : family) (n : net F) (cs : list Z) (h : addr F) :
  wf_net n -> cs <> [] -> highest n h ->
  let y := run_start n cs + total cs in
  exists first, described n None first /\
    (top F < y -> split_subnet n cs = Ret None /\
       forall T : Terminal, gives (output_split n cs (show_of F))
         (split_marks first [] [] ++ [says (lit "Not enough addresses available for this split.")]) 1%Z) /\
    (y <= top F -> exists r mss b, split_subnet n cs = Ret (Some r) /\ Forall2 (fun e ms => described e None ms) r mss /\
       valid b /\ value b = y /\
       (~ split_inside n cs -> forall T : Terminal, gives (output_split n cs (show_of F))
          (split_marks first cs mss ++ [says (lit "Network is too small")]) 0%Z) /\
       (split_inside n cs -> forall T : Terminal, output_split n cs (show_of F) =
          (map (paint colors_enabled) (split_marks first cs mss ++ says (lit "Unused networks:") ::
             match range_to_subnets b h with Ret us => map (fun u => says (net_display u)) us | _ => [] end),
           match range_to_subnets b h with Ret us => Ret 0%Z | Panic => Panic | Diverge => Diverge end))).
Proof.
  intros Wn Hne Hh y. destruct (described_exists R F n None Wn) as (first & D & S); [discriminate|].
  exists first. split; [exact D|]. pose proof (pow2_pos (width F)) as Hpos.
  destruct (split_parts R F n cs Wn) as [P1 P2]. split.
  - intros Ht. unfold top, y in Ht. specialize (P2 ltac:(lia)). split; [exact P2|]. intros T. unfold gives.
    rewrite (c51_no_split R T F n cs (show_of F) Wn (c56_printer R T F) P2). f_equal.
    pose proof (report_marks (show_of F) n first (S T) [] [] [] (Forall2_nil _)) as Em. rewrite map_app, <- Em.
    unfold split_report. cbn [combine flat_map]. rewrite !app_nil_r, <- !app_assoc. reflexivity.
  - intros Ht. assert (y < 2 ^ width F) as Hy by (unfold top in Ht; lia).
    destruct (P1 Hy) as (r & ns & Er & Pm & _ & Hc & _).
    assert (Forall wf_net r) as Wr.
    { rewrite Forall_forall in *. intros e He. apply (Permutation_in _ Pm) in He. now destruct (Hc e He) as (p & We & _). }
    destruct (described_list R F r Wr) as (mss & D' & S').
    assert (exists b : addr F, valid b /\ value b = y) as (b & Vb & Eb).
    { destruct (NetFacts.of_value (A := addr F) y) as (b & Ob & Ev); [rewrite <- width_W; exact Hy|]. exists b.
      apply valid_ok in Ob. split; [exact Ob|]. now rewrite <- value_v. }
    exists r, mss, b. split; [exact Er|]. split; [exact D'|]. split; [exact Vb|]. split; [exact Eb|].
    assert (forall T : Terminal, split_report (show_of F) n cs r = map (paint colors_enabled) (split_marks first cs mss)) as Em.
    { intros T. apply report_marks; [apply S|]. clear -S'. induction S'; constructor; auto. }
    assert (forall T : Terminal, exists mu, valid mu /\ value mu + 1 = y /\ output_split n cs (show_of F) =
      if contains n mu
      then (map (paint colors_enabled) (split_marks first cs mss ++ says (lit "Unused networks:") ::
             match range_to_subnets b h with Ret us => map (fun u => says (net_display u)) us | _ => [] end),
           match range_to_subnets b h with Ret us => Ret 0%Z | Panic => Panic | Diverge => Diverge end)
      else (map (paint colors_enabled) (split_marks first cs mss ++ [says (lit "Network is too small")]), Ret 0%Z)) as G.
    { intros T. destruct (output_general R T F n cs r h (show_of F) Wn Hne (c56_printer R T F) Er Hh)
        as (_ & mu & nx & Vmu & Emu & Vnx & Enx & Eo).
      assert (nx = b) as -> by (apply value_inj; try assumption; fold y in Enx; congruence).
      exists mu. split; [exact Vmu|]. split; [exact Emu|]. rewrite Eo, Em. rewrite !map_app. cbn [map paint].
      destruct (contains n mu); [|reflexivity]. f_equal. f_equal. f_equal.
      destruct (range_to_subnets b h); [|reflexivity|reflexivity]. rewrite map_map. reflexivity. }
    split.
    + intros Ni T. destruct (G T) as (mu & Vmu & Emu & Eo). unfold gives. rewrite Eo.
      destruct (contains n mu) eqn:C; [|reflexivity]. exfalso. apply Ni. apply (c19_contains R F n mu Wn Vmu) in C.
      split; [exact Ht|]. exists mu. auto.
    + intros (_ & mu' & Vmu' & Mmu' & Emu') T. destruct (G T) as (mu & Vmu & Emu & Eo). rewrite Eo.
      replace mu with mu' by (apply value_inj; try assumption; unfold y in Emu; lia).
      now rewrite (proj2 (c19_contains R F n mu' Wn Vmu') Mmu').
Qed.

Lemma parse_counts ss : forall cs acc, Forall2 count_text ss cs -> Forall (fun c => 0 <= c)%Z cs ->
  forall post, parse_host_counts (ss ++ post) acc = parse_host_counts post (acc ++ cs).
Proof.
  induction ss as [|s ss IH]; intros cs acc H Hp post; inversion H as [|? c ? cs' Hc Hcs]; subst.
  - now rewrite app_nil_r.
  - cbn [app parse_host_counts]. apply c63_host_count in Hc. rewrite Hc. inversion Hp; subst.
    rewrite (proj2 (Z.ltb_ge c 0)) by assumption. rewrite (IH cs') by assumption. now rewrite <- app_assoc.
Qed.
Lemma parse_counts_all ss cs : counts_text ss cs -> parse_host_counts ss [] = ROk cs.
Proof. intros (_ & H & Hp). rewrite <- (app_nil_r ss), (parse_counts ss cs [] H Hp []). reflexivity. Qed.

Lemma split_run (R : Rust) (T : Terminal) (F : family) prog w s ss (a : addr F) n cs :
  In w split_words -> means F s a n -> counts_text ss cs ->
  do_main (prog :: w :: s :: ss) = output_split n cs (show_of F).
Proof.
  intros Hw Hs Hc. rewrite run_split by exact Hw. unfold Main.split.
  pose proof (parse_counts_all ss cs Hc) as Ep. destruct Hc as (Hne & _). destruct ss as [|s0 ss]; [congruence|].
  rewrite Ep. apply (parse_means R) in Hs. rewrite Hs, io_lift_ret. destruct F; reflexivity.
Qed.

Lemma c62_split : forall (R : Rust) (F : family) (prog w s : str) (ss : list str) (a : addr F) (n : net F) (cs : list Z) (h : addr F),
  In w split_words -> means F s a n -> counts_text ss cs -> highest n h ->
  let y := run_start n cs + total cs in
  exists first, described n None first /\
    (top F < y -> split_subnet n cs = Ret None /\
       does (prog :: w :: s :: ss)
         (split_marks first [] [] ++ [says (lit "Not enough addresses available for this split.")]) 1%Z) /\
    (y <= top F -> exists r mss, split_subnet n cs = Ret (Some r) /\ Forall2 (fun e ms => described e None ms) r mss /\
       (~ split_inside n cs ->
          does (prog :: w :: s :: ss) (split_marks first cs mss ++ [says (lit "Network is too small")]) 0%Z) /\
       (split_inside n cs -> N.max y (value h) <> top F -> exists b us, valid b /\ value b = y /\
          range_to_subnets b h = Ret us /\
          does (prog :: w :: s :: ss)
            (split_marks first cs mss ++ says (lit "Unused networks:") :: map (fun u => says (net_display u)) us) 0%Z)).
Proof.
  intros R F prog w s ss a n cs h Hw Hs Hc Hh y. destruct (means_wf R F s a n Hs) as [_ Wn].
  assert (cs <> []) as Hne by (destruct Hc as (Hne & H2 & _); destruct H2; congruence).
  destruct (split_io R F n cs h Wn Hne Hh) as (first & D & P1 & P2). exists first. split; [exact D|]. fold y in P1, P2. split.
  - intros Ht. destruct (P1 Ht) as [E G]. split; [exact E|]. apply does_gives. intros T.
    rewrite (split_run R T F prog w s ss a n cs Hw Hs Hc). apply G.
  - intros Ht. destruct (P2 Ht) as (r & mss & b & E & D' & Vb & Eb & Q1 & Q2). exists r, mss.
    split; [exact E|]. split; [exact D'|]. split.
    + intros Ni. apply does_gives. intros T. rewrite (split_run R T F prog w s ss a n cs Hw Hs Hc). now apply Q1.
    + intros In_ Hm. pose proof (proj1 Hh) as Vh. destruct (proj2 (c37_returns_iff R F b h Vb Vh)) as (us & Eu); [now rewrite Eb|].
      exists b, us. split; [exact Vb|]. split; [exact Eb|]. split; [exact Eu|].
      intros T. rewrite (split_run R T F prog w s ss a n cs Hw Hs Hc), (Q2 In_ T), Eu. reflexivity.
Qed.

Lemma c62_split_error : forall (R : Rust) (F : family) (prog w s : str) (pre post : list str) (t : str) (cs : list Z),
  In w split_words ->
  (nonsense s -> counts_text pre cs ->
     exists e, parse_netspec s = Ret (RErr e) /\ does (prog :: w :: s :: pre) [Problem (MsgSplitNetspec s e)] 1%Z) /\
  (pre = [] \/ counts_text pre cs ->
     ((forall c, ~ count_text t c) -> does (prog :: w :: s :: pre ++ t :: post) [Problem (MsgHostCount t (count_problem t))] 1%Z) /\
     (forall c, count_text t c -> (c < 0)%Z -> does (prog :: w :: s :: pre ++ t :: post) [Problem MsgHostCountNegative] 1%Z)).
Proof.
  intros R F prog w s pre post t cs Hw. split.
  - intros Hs Hc. apply (parse_nonsense R) in Hs. destruct Hs as (e & E). exists e. split; [exact E|].
    apply does_gives. intros T. rewrite run_split by exact Hw. unfold Main.split.
    pose proof (parse_counts_all pre cs Hc) as Ep. destruct Hc as (Hne & _). destruct pre as [|s0 pre]; [congruence|].
    rewrite Ep. eapply gives_lift; [exact E|]. apply gives_error.
  - intros Hp.
    assert (exists acc, forall post, parse_host_counts (pre ++ post) [] = parse_host_counts post acc) as (acc & Ea).
    { destruct Hp as [->|(_ & H & H')]; [now exists []|]. exists ([] ++ cs). intros q. now apply parse_counts. }
    assert (forall T : Terminal, do_main (prog :: w :: s :: pre ++ t :: post) =
      match parse_host_counts (pre ++ t :: post) [] with
      | RErr m => eprintln m ;;; io_ret 1%Z
      | ROk host_counts =>
            r <-- io_lift (parse_netspec s) ;;
            match r with
            | RErr e => eprintln (MsgSplitNetspec s e) ;;; io_ret 1%Z
            | ROk (Spec4 _ net) => output_split net host_counts output_ipv4_network
            | ROk (Spec6 _ net) => output_split net host_counts output_ipv6_network
            end
      end) as Er.
    { intros T. rewrite run_split by exact Hw. unfold Main.split. now destruct pre. }
    split.
    + intros Nt. apply does_gives. intros T. rewrite Er, Ea. cbn [parse_host_counts].
      rewrite (proj2 (c63_host_count_error t _) (conj Nt eq_refl)). apply gives_error.
    + intros c Hc Neg. apply does_gives. intros T. rewrite Er, Ea. cbn [parse_host_counts].
      apply c63_host_count in Hc. rewrite Hc. rewrite (proj2 (Z.ltb_lt c 0) Neg). apply gives_error.
Qed.

(** ** All runs *)
Definition is_problem (m : mark) : Prop := match m with Problem _ => True | _ => False end.
Definition quiet (ms : list mark) : Prop := Forall (fun m => ~ is_problem m) ms.

Lemma quiet_app ms ms' : quiet ms -> quiet ms' -> quiet (ms ++ ms').
Proof. intros H H'. apply Forall_app. now split. Qed.
Lemma quiet_cons m ms : ~ is_problem m -> quiet ms -> quiet (m :: ms).
Proof. constructor; assumption. Qed.
Lemma quiet_nil : quiet [].
Proof. constructor. Qed.
Lemma quiet_flat {X} (f : X -> list mark) l : (forall x, In x l -> quiet (f x)) -> quiet (flat_map f l).
Proof.
  induction l as [|x l IH]; intros H; cbn [flat_map]; [apply quiet_nil|]. apply quiet_app; [apply H; now left|].
  apply IH. intros y Hy. apply H. now right.
Qed.
Lemma quiet_says {X} (f : X -> str) l : quiet (map (fun x => says (f x)) l).
Proof. induction l as [|x l IH]; cbn [map]; [apply quiet_nil|]. now apply quiet_cons. Qed.

Lemma quiet_column {F : family} k (a : addr F) c : quiet (column k a c).
Proof.
  apply quiet_flat. intros i _. apply quiet_cons; [easy|]. destruct (_ && _); [apply quiet_cons; [easy|]|]; apply quiet_nil.
Qed.
Lemma quiet_headings {F : family} l t : quiet (headings (F := F) l t).
Proof. repeat (apply quiet_cons; [easy|]). apply quiet_nil. Qed.
Ltac quiet_step :=
  first [apply quiet_nil | apply quiet_column | apply quiet_headings | apply quiet_app
        | apply quiet_cons; [easy|] | apply quiet_says].
Lemma quiet_row (R : Rust) {F : family} l t (a : addr F) c : quiet (row l t a c).
Proof. unfold row. repeat quiet_step. Qed.
Lemma quiet_masked_row (R : Rust) {F : family} l t (a m : addr F) c : quiet (masked_row l t a m c).
Proof. unfold masked_row. repeat quiet_step. Qed.
Lemma quiet_report (R : Rust) {F : family} (n : net F) a hosts bc k class : quiet (report n a hosts bc k class).
Proof.
  unfold report. apply quiet_app; [|apply quiet_app; [|apply quiet_app; [|apply quiet_app]]].
  - destruct a; [|apply quiet_nil]. apply quiet_app; [apply quiet_masked_row|]. apply quiet_app; [apply quiet_row|].
    apply quiet_app; [apply quiet_row|]. repeat (apply quiet_cons; [easy|]). apply quiet_nil.
  - apply quiet_masked_row.
  - destruct hosts as [[x y]|]; [apply quiet_app; apply quiet_row|]. repeat (apply quiet_cons; [easy|]). apply quiet_nil.
  - destruct bc; [apply quiet_row|]. repeat (apply quiet_cons; [easy|]). apply quiet_nil.
  - destruct (2 <? k); [|repeat (apply quiet_cons; [easy|]); apply quiet_nil].
    apply quiet_app; [apply quiet_headings|]. destruct class; repeat (apply quiet_cons; [easy|]); apply quiet_nil.
Qed.
Lemma quiet_described (R : Rust) {F : family} (n : net F) a ms : described n a ms -> quiet ms.
Proof. intros (h & b & k & c & _ & _ & _ & _ & ->). apply quiet_report. Qed.
Lemma quiet_spaced mss : Forall quiet mss -> quiet (spaced mss).
Proof.
  induction 1 as [|ms mss H H' IH]; cbn [spaced]; [apply quiet_nil|]. apply quiet_app; [exact H|].
  destruct mss; [apply quiet_nil|]. apply quiet_cons; [easy|exact IH].
Qed.
Lemma quiet_blocks {X} (f : X -> str) (l : list X) mss : Forall quiet mss ->
  quiet (flat_map (fun cm => says (f (fst cm)) :: snd cm ++ [break]) (combine l mss)).
Proof.
  intros H. apply quiet_flat. intros [x ms] Hx. apply in_combine_r in Hx. rewrite Forall_forall in H.
  apply quiet_cons; [easy|]. apply quiet_app; [now apply H|]. apply quiet_cons; [easy|]. apply quiet_nil.
Qed.
Lemma quiet_list (R : Rust) {F : family} (l : list (net F)) mss :
  Forall2 (fun e ms => described e None ms) l mss -> Forall quiet mss.
Proof. induction 1; [constructor|]. constructor; [eapply quiet_described; eassumption|assumption]. Qed.

(** What a finished run looks like. *)
Definition fine (args : list str) (ms : list mark) (z : Z) : Prop :=
  (z = 0%Z /\ quiet ms) \/
  (z = 0%Z /\ ms = [Problem MsgUsage] /\ exists prog rest, args = prog :: lit "--help" :: rest) \/
  (z = 1%Z /\ exists m, In (Problem m) ms) \/
  (z = 1%Z /\ (exists prog w rest, args = prog :: w :: rest /\ In w split_words) /\
   In (says (lit "Not enough addresses available for this split.")) ms).
Definition finishes (R : Rust) (args : list str) : Prop := exists ms z, does args ms z /\ fine args ms z.

Lemma finishes_quiet (R : Rust) args ms : does args ms 0%Z -> quiet ms -> finishes R args.
Proof. intros H Q. exists ms, 0%Z. split; [exact H|]. now left. Qed.
Lemma finishes_problem (R : Rust) args m : does args [Problem m] 1%Z -> finishes R args.
Proof. intros H. exists [Problem m], 1%Z. split; [exact H|]. right. right. left. split; [reflexivity|]. exists m. now left. Qed.

Lemma finishes_usage (R : Rust) args :
  (List.length args < 2)%nat \/
  (exists prog w rest, args = prog :: w :: rest /\
     ((In w derange_words \/ In w resize_words) /\ List.length rest <> 2%nat \/
      In w split_words /\ (List.length rest < 2)%nat \/
      (In w minimize_words \/ In w enumerate_words) /\ rest = [])) -> finishes R args.
Proof. intros H. apply (finishes_problem R args MsgUsage). now apply c62_usage. Qed.

Definition dummy (F : family) : addr F := match F with V4 => ip4 0 0 0 0 | V6 => ip6 0 0 0 0 0 0 0 0 end.
Definition dummy_net (F : family) : net F := {| base_addr := dummy F; subnet_mask := dummy F; cidr_prefix := None |}.

Lemma finishes_minimize (R : Rust) prog w rest : In w minimize_words -> finishes R (prog :: w :: rest).
Proof.
  intros Hw. destruct (specs_cases R rest) as [(-> & _)|[(F & l & Hne & H & K)|[(F & e & pre & s & post & -> & E & Hp & _)|(F & G & pre & s & post & HF & Hne & -> & (a & n & E) & Hp & K)]]].
  - apply finishes_usage. right. exists prog, w, []. split; [reflexivity|]. right. right. split; [now left|reflexivity].
  - destruct (c62_minimize R F prog w rest l Hw Hne) as (r & _ & D).
    + clear -H. induction H as [|s an ss l Hs H IH]; [constructor|]. constructor; [now apply (parse_means R)|exact IH].
    + eapply finishes_quiet; [exact D|apply quiet_says].
  - assert (Forall (of_family F) pre) as Hp'.
    { eapply Forall_impl; [|exact Hp]. intros t (a & n & Ht). exists a, n. now apply (parse_means R). }
    destruct (proj1 (c62_minimize_error R F prog w pre post s Hw Hp')) as (e' & _ & D); [apply (parse_nonsense R); eauto|].
    eapply finishes_problem, D.
  - assert (Forall (of_family F) pre) as Hp'.
    { eapply Forall_impl; [|exact Hp]. intros t (a' & n' & Ht). exists a', n'. now apply (parse_means R). }
    eapply finishes_problem. apply (proj2 (c62_minimize_error R F prog w pre post s Hw Hp') Hne G); [congruence|].
    exists a, n. now apply (parse_means R).
Qed.

Lemma family_dec (F G : family) : F = G \/ F <> G.
Proof. destruct F, G; try (now left); right; discriminate. Qed.

Lemma finishes_derange (R : Rust) prog w rest : In w derange_words ->
  finishes R (prog :: w :: rest) \/ derange_to_top (prog :: w :: rest).
Proof.
  intros Hw. destruct rest as [|s [|t [|u rest]]];
    try (left; apply finishes_usage; right; do 3 eexists; split; [reflexivity|]; left; split; [now left|discriminate]).
  destruct (addr_cases s) as [(F & a & _ & Ha)|(e & _ & Hs)].
  - destruct (addr_cases t) as [(G & b & _ & Hb)|(e & _ & Ht)].
    + destruct (family_dec F G) as [<-|HF].
      * destruct (N.eq_dec (N.max (value a) (value b)) (top F)) as [E|E].
        -- right. exists F, prog, w, s, t, a, b. auto.
        -- left. destruct (c62_derange R F prog w s t a b Hw Ha Hb E) as (r & _ & D). eapply finishes_quiet; [exact D|apply quiet_says].
      * left. eapply finishes_problem. now apply (proj2 (proj2 (c62_derange_error R F G prog w s t a b Hw))).
    + left. destruct (proj1 (proj2 (c62_derange_error R F V4 prog w s t a (dummy V4) Hw)) Ha Ht) as (e' & _ & D).
      eapply finishes_problem, D.
  - left. destruct (proj1 (c62_derange_error R V4 V4 prog w s t (dummy V4) (dummy V4) Hw) Hs) as (e' & _ & D).
    eapply finishes_problem, D.
Qed.

Lemma finishes_resize (R : Rust) prog w rest : In w resize_words -> finishes R (prog :: w :: rest).
Proof.
  intros Hw. destruct rest as [|s [|t [|u rest]]];
    try (apply finishes_usage; right; do 3 eexists; split; [reflexivity|]; left; split; [now right|discriminate]).
  destruct (parse_cases R s) as [(F & a & n & _ & M)|(e & _ & N)].
  - assert (forall m : addr F, mask_text F t m -> finishes R [prog; w; s; t]) as K.
    { intros m Hm. destruct (c62_resize R F prog w s t a n m Hw M Hm) as (r & o & first & mss & _ & D & D' & X).
      eapply finishes_quiet; [exact X|]. unfold resize_marks. apply quiet_cons; [easy|].
      apply quiet_app; [eapply quiet_described; exact D|]. apply quiet_cons; [easy|].
      apply quiet_list in D'. apply (quiet_blocks (fun i => match o with Lt => lit "Supernet:" | Eq => lit "Same-sized net:"
        | Gt => lit "Subnet " ++ fmt_dec (N.of_nat i) ++ lit ":" end)). exact D'. }
    destruct (c62_resize_error R F prog w s t a n Hw) as (_ & E2 & E3 & E4).
    destruct (proj2 (c34_returns R t)) as ([[p|m|m]|e] & E).
    + apply c34_subnet in E. destruct E as [Hwr Hp]. destruct (N.le_gt_cases p (width F)) as [Hle|Hgt].
      * assert (exists m : addr F, valid m /\ value m = prefix_mask F p) as (m & Vm & Em).
        { destruct (NetFacts.of_value (A := addr F) (prefix_mask F p)) as (b & Ob & Ev).
          - rewrite <- width_W. unfold prefix_mask. pose proof (pow2_pos (width F - p)). pose proof (pow2_pos (width F)). lia.
          - exists b. apply valid_ok in Ob. split; [exact Ob|]. now rewrite <- value_v. }
        apply (K m). right. exists p. auto.
      * eapply finishes_problem, (E3 M p Hwr). now split.
    + apply c34_subnet in E. assert (address_text V4 t m) as At by (split; [intros ->; now apply reads4_chars in E|exact E]).
      destruct F; [apply (K m); now left|]. eapply finishes_problem, (E4 M V4 m); [discriminate|exact At].
    + apply c34_subnet in E. assert (address_text V6 t m) as At by exact E.
      destruct F; [|apply (K m); now left]. eapply finishes_problem, (E4 M V6 m); [discriminate|exact At].
    + destruct (E2 M) as (e' & _ & D).
      * intros G m (Hne & Hm). destruct G.
        -- apply (c34_subnet R) in Hm. congruence.
        -- assert (parse_subnet t = Ret (ROk (PSMask6 m))) by (apply c34_subnet; now split). congruence.
      * intros p Hp Hwr. assert (parse_subnet t = Ret (ROk (PSCidr p))) by (apply c34_subnet; now split). congruence.
      * eapply finishes_problem, D.
  - destruct (proj1 (c62_resize_error R V4 prog w s t (dummy V4) (dummy_net V4) Hw) N) as (e' & _ & D).
    eapply finishes_problem, D.
Qed.

Lemma finishes_enumerate (R : Rust) prog w rest : In w enumerate_words -> finishes R (prog :: w :: rest).
Proof.
  intros Hw. destruct rest as [|s ss].
  { apply finishes_usage. right. exists prog, w, []. split; [reflexivity|]. right. right. split; [now right|reflexivity]. }
  destruct (c62_enumerate R prog w (s :: ss) Hw) as (mss & z & H & Hz & D); [discriminate|].
  exists (List.concat mss), z. split; [exact D|]. destruct Hz as [[-> Hz]|[-> (t & Ht & Nt)]].
  - left. split; [reflexivity|]. clear -H Hz. induction H as [|t ms ss' mss Ht H IH]; cbn [List.concat]; [apply quiet_nil|].
    apply quiet_app; [|apply IH; intros u Hu; apply Hz; now right].
    destruct Ht as [(F & a & n & l & _ & _ & _ & ->)|(N & _)]; [apply quiet_says|].
    destruct (Hz t); [now left|exact N].
  - right. right. left. split; [reflexivity|]. clear -H Ht Nt. induction H as [|t' ms ss' mss Ht' H IH]; [contradiction|].
    cbn [List.concat]. destruct Ht as [->|Ht].
    + destruct Ht' as [(F & a & n & l & M & _)|(_ & e & _ & ->)]; [now apply Nt in M|].
      exists (MsgNetwork t e). now left.
    + destruct (IH Ht) as (m & Hm). exists m. apply in_or_app. now right.
Qed.

Lemma finishes_show (R : Rust) prog w rest : ~ In w command_words -> finishes R (prog :: w :: rest).
Proof.
  intros Hw.
  assert ((forall s, In s (w :: rest) -> ~ nonsense s) \/ exists pre s post, w :: rest = pre ++ s :: post /\
    (forall t, In t pre -> ~ nonsense t) /\ nonsense s) as C.
  { clear Hw. generalize (w :: rest) as ss. induction ss as [|s ss IH]; [left; intros s []|].
    destruct (parse_cases R s) as [(F & a & n & _ & M)|(e & _ & N)].
    - assert (~ nonsense s) as Ns by (intros N; now apply N in M). destruct IH as [H|(pre & t & post & -> & Hp & Nt)].
      + left. intros t [<-|Ht]; auto.
      + right. exists (s :: pre), t, post. split; [reflexivity|]. split; [|exact Nt]. intros u [<-|Hu]; auto.
    - right. exists [], s, ss. split; [reflexivity|]. split; [intros t []|exact N]. }
  destruct C as [H|(pre & s & post & E & Hp & N)].
  - destruct (c62_show R prog (w :: rest)) as (mss & D & X); [discriminate|now intros x [= <-]|exact H|].
    eapply finishes_quiet; [exact X|]. apply quiet_spaced. clear -D. induction D as [|s ms ss mss (F & a & n & _ & Hd) D IH]; [constructor|]. constructor; [|exact IH].
    eapply quiet_described, Hd.
  - destruct (c62_show_error R prog pre post s) as (e & _ & D); [rewrite <- E; now intros x [= <-]|exact Hp|exact N|].
    rewrite <- E in D. eapply finishes_problem, D.
Qed.

Lemma counts_cases ss : ss <> [] -> (exists cs, counts_text ss cs) \/
  exists pre cs t post, ss = pre ++ t :: post /\ (pre = [] \/ counts_text pre cs) /\
    ((forall c, ~ count_text t c) \/ exists c, count_text t c /\ (c < 0)%Z).
Proof.
  intros Hne. assert ((exists cs, Forall2 count_text ss cs /\ Forall (fun c => 0 <= c)%Z cs) \/
  exists pre cs t post, ss = pre ++ t :: post /\ (Forall2 count_text pre cs /\ Forall (fun c => 0 <= c)%Z cs) /\
    ((forall c, ~ count_text t c) \/ exists c, count_text t c /\ (c < 0)%Z)) as G.
  { clear Hne. induction ss as [|s ss IH]; [left; exists []; split; constructor|].
    assert ((exists c, count_text s c /\ (0 <= c)%Z) \/ ((forall c, ~ count_text s c) \/ exists c, count_text s c /\ (c < 0)%Z)) as C.
    { destruct (parse_bigint s) as [c|err] eqn:E.
      - apply c63_host_count in E. destruct (Z.neg_nonneg_cases c); [right; right; eauto|left; eauto].
      - right. left. intros c Hc. apply c63_host_count in Hc. congruence. }
    destruct C as [(c & Hc & Hp)|C].
    - destruct IH as [(cs & H1 & H2)|(pre & cs & t & post & -> & (H1 & H2) & X)].
      + left. exists (c :: cs). split; constructor; assumption.
      + right. exists (s :: pre), (c :: cs), t, post. split; [reflexivity|]. split; [split; constructor; assumption|exact X].
    - right. exists [], [], s, ss. split; [reflexivity|]. split; [split; constructor|exact C]. }
  destruct G as [(cs & H1 & H2)|(pre & cs & t & post & E & (H1 & H2) & X)].
  - left. exists cs. split; [exact Hne|now split].
  - right. exists pre, cs, t, post. split; [exact E|]. split; [|exact X]. destruct pre as [|p pre]; [now left|right].
    split; [discriminate|now split].
Qed.

Lemma inside_dec (R : Rust) {F : family} (n : net F) cs : wf_net n -> cs <> [] -> split_inside n cs \/ ~ split_inside n cs.
Proof.
  intros Wn Hne. unfold split_inside. set (y := run_start n cs + total cs).
  assert (0 < y) as Hy by (pose proof (largest_total cs Hne); pose proof (pow2_pos (largest cs)); unfold y; lia).
  destruct (N.le_gt_cases y (top F)) as [Hle|Hgt]; [|right; lia]. pose proof (pow2_pos (width F)).
  destruct (NetFacts.of_value (A := addr F) (y - 1)) as (a & Oa & Ev); [rewrite <- width_W; unfold top in Hle; lia|].
  apply valid_ok in Oa. rewrite value_v in Ev by exact Oa.
  destruct (contains n a) eqn:C.
  - left. split; [exact Hle|]. exists a. split; [exact Oa|]. split; [now apply (c19_contains R F n a Wn Oa)|lia].
  - right. intros (_ & b & Vb & Mb & Eb). assert (a = b) as -> by (apply value_inj; [exact Oa|exact Vb|lia]).
    apply (c19_contains R F n b Wn Vb) in Mb. congruence.
Qed.

Lemma finishes_split (R : Rust) prog w rest : In w split_words ->
  finishes R (prog :: w :: rest) \/ split_to_top (prog :: w :: rest).
Proof.
  intros Hw. destruct rest as [|s [|s0 ss']];
    try (left; apply finishes_usage; right; do 3 eexists; split; [reflexivity|]; right; left; split; [exact Hw|cbn [List.length]; lia]).
  set (ss := s0 :: ss'). assert (ss <> []) as Hss by discriminate. clearbody ss.
  destruct (counts_cases ss Hss) as [(cs & Hc)|(pre & cs & t & post & -> & Hp & Ht)].
  - destruct (parse_cases R s) as [(F & a & n & _ & M)|(e & _ & N)].
    + destruct (means_wf R F s a n M) as [_ Wn]. destruct (c25_last_addr R F n Wn) as (h & _ & Hh).
      assert (cs <> []) as Hne by (destruct Hc as (_ & H2 & _); destruct H2; congruence).
      destruct (c62_split R F prog w s ss a n cs h Hw M Hc Hh) as (first & D & P1 & P2).
      assert (forall l, Forall quiet l -> quiet (split_marks first cs l)) as Q.
      { intros l Hl. unfold split_marks. apply quiet_cons; [easy|]. apply quiet_app; [eapply quiet_described, D|].
        apply quiet_cons; [easy|]. now apply (quiet_blocks (fun c => lit "Subnet for " ++ fmt_Z c ++ lit " hosts:")). }
      destruct (N.le_gt_cases (run_start n cs + total cs) (top F)) as [Hle|Hgt].
      * destruct (P2 Hle) as (r & mss & _ & D' & Q1 & Q2). apply quiet_list in D'.
        destruct (inside_dec R n cs Wn Hne) as [Hi|Hi].
        -- destruct (N.eq_dec (N.max (run_start n cs + total cs) (value h)) (top F)) as [E|E].
           ++ right. exists F, prog, w, s, ss, a, n, cs, h. repeat (split; [first [reflexivity|assumption]|]). exact E.
           ++ left. destruct (Q2 Hi E) as (b & us & _ & _ & _ & X). eapply finishes_quiet; [exact X|].
              apply quiet_app; [now apply Q|]. apply quiet_cons; [easy|apply quiet_says].
        -- left. eapply finishes_quiet; [exact (Q1 Hi)|]. apply quiet_app; [now apply Q|]. apply quiet_cons; [easy|apply quiet_nil].
      * left. destruct (P1 Hgt) as [_ X]. eexists _, 1%Z. split; [exact X|]. right. right. right. split; [reflexivity|].
        split; [exists prog, w, (s :: ss); now split|]. apply in_or_app. right. now left.
    + left. destruct (proj1 (c62_split_error R V4 prog w s ss [] [] cs Hw) N Hc) as (e' & _ & X). eapply finishes_problem, X.
  - left. destruct (proj2 (c62_split_error R V4 prog w s pre post t cs Hw) Hp) as [X Y]. destruct Ht as [Ht|(c & Hc & Neg)].
    + eapply finishes_problem, (X Ht).
    + eapply finishes_problem, (Y c Hc Neg).
Qed.

Lemma finishes_all (R : Rust) args : finishes R args \/ derange_to_top args \/ split_to_top args.
Proof.
  destruct args as [|prog [|w rest]]; [left; apply finishes_usage; left; cbn [List.length]; lia..|].
  destruct (run_cases w) as [H|[H|[H|[H|[H|[->|[->|H]]]]]]].
  - left. now apply finishes_minimize.
  - destruct (finishes_derange R prog w rest H); auto.
  - destruct (finishes_split R prog w rest H); auto.
  - left. now apply finishes_resize.
  - left. now apply finishes_enumerate.
  - left. destruct (uniform_bind (fun T => @color_test T) (fun T _ => io_ret 0%Z)) as (ms & r & E).
    + unfold color_test. uni.
    + intros _. apply uniform_ret.
    + exists ms, 0%Z. assert (forall T : Terminal, do_main (prog :: lit "--color-test" :: rest) = (map (paint colors_enabled) ms, r)) as E' by exact E.
      assert (r = Ret 0%Z) as -> by (specialize (E plain); apply (f_equal snd) in E; cbn in E; congruence).
      split; [exact E'|]. left. split; [reflexivity|]. specialize (E colourful). apply (f_equal fst) in E.
      apply Forall_forall. intros [c s|s|m] Hm; cbn [is_problem]; try easy. intros _.
      apply (in_map (paint true)) in Hm. cbn [fst colors_enabled colourful] in E. rewrite <- E in Hm. vm_compute in Hm.
      repeat (destruct Hm as [Hm|Hm]; [discriminate|]). contradiction.
  - left. exists [Problem MsgUsage], 0%Z. split; [intros T; reflexivity|]. right. left. split; [reflexivity|]. split; [reflexivity|].
    now exists prog, rest.
  - left. now apply finishes_show.
Qed.

Lemma derange_top_stuck (R : Rust) (T : Terminal) args z : derange_to_top args -> snd (do_main args) <> Ret z.
Proof.
  intros (F & prog & w & s & t & a & b & -> & Hw & Ha & Hb & E).
  pose proof (addr_valid F s a Ha) as Va. pose proof (addr_valid F t b Hb) as Vb.
  assert (forall l, range_to_subnets a b <> Ret l) as K.
  { intros l El. apply (proj1 (c37_returns_iff R F a b Va Vb)); [eauto|exact E]. }
  rewrite run_derange by exact Hw. unfold derange.
  apply c34_address in Ha, Hb. rewrite Ha, io_lift_ret, Hb, io_lift_ret.
  destruct F; cbn [parsed_of version N.eqb Pos.eqb negb]; intros X.
  - destruct (@range_to_subnets R (addr V4) _ a b) as [l| |] eqn:El; [now apply (K l)| |].
    + change (@range_to_subnets R (addr V4) (addr_ops V4) a b) with (@range_to_subnets R ipv4 ipv4_ops a b) in El. rewrite El in X. discriminate.
    + change (@range_to_subnets R (addr V4) (addr_ops V4) a b) with (@range_to_subnets R ipv4 ipv4_ops a b) in El. rewrite El in X. discriminate.
  - destruct (@range_to_subnets R (addr V6) _ a b) as [l| |] eqn:El; [now apply (K l)| |].
    + change (@range_to_subnets R (addr V6) (addr_ops V6) a b) with (@range_to_subnets R ipv6 ipv6_ops a b) in El. rewrite El in X. discriminate.
    + change (@range_to_subnets R (addr V6) (addr_ops V6) a b) with (@range_to_subnets R ipv6 ipv6_ops a b) in El. rewrite El in X. discriminate.
Qed.

Lemma split_top_stuck (R : Rust) (T : Terminal) args z : split_to_top args -> snd (do_main args) <> Ret z.
Proof.
  intros (F & prog & w & s & ss & a & n & cs & h & -> & Hw & Hc & Hs & Hi & Hh & E).
  destruct (means_wf R F s a n Hs) as [_ Wn].
  assert (cs <> []) as Hne by (destruct Hc as (Hne & H2 & _); destruct H2; congruence).
  destruct (split_io R F n cs h Wn Hne Hh) as (first & _ & _ & P). destruct (P (proj1 Hi)) as (r & mss & b & _ & _ & Vb & Eb & _ & Q).
  rewrite (split_run R T F prog w s ss a n cs Hw Hs Hc), (Q Hi T). cbn [snd].
  destruct (range_to_subnets b h) as [l| |] eqn:El; [|discriminate..]. exfalso.
  apply (proj1 (c37_returns_iff R F b h Vb (proj1 Hh))); [eauto|]. now rewrite Eb.
Qed.

Lemma c62_ends_iff : forall (R : Rust) (T : Terminal) (args : list str),
  (exists z, snd (do_main args) = Ret z) <-> ~ derange_to_top args /\ ~ split_to_top args.
Proof.
  intros R T args. split.
  - intros (z & E). split; intros H; [now apply (derange_top_stuck R T args z) in H|now apply (split_top_stuck R T args z) in H].
  - intros [N1 N2]. destruct (finishes_all R args) as [(ms & z & D & _)|[H|H]]; [|contradiction..].
    exists z. rewrite D. reflexivity.
Qed.

Lemma finished (R : Rust) (T : Terminal) args z : snd (do_main args) = Ret z ->
  exists ms, fst (do_main args) = map (paint colors_enabled) ms /\ fine args ms z.
Proof.
  intros E. destruct (finishes_all R args) as [(ms & z' & D & X)|[H|H]].
  - exists ms. rewrite D in *. cbn [snd] in E. injection E as <-. now split.
  - now apply (derange_top_stuck R T args z) in H.
  - now apply (split_top_stuck R T args z) in H.
Qed.

Lemma c62_status : forall (R : Rust) (T : Terminal) (args : list str) (z : Z),
  snd (do_main args) = Ret z -> z = 0%Z \/ z = 1%Z.
Proof.
  intros R T args z E. destruct (finished R T args z E) as (ms & _ & [[-> _]|[[-> _]|[[-> _]|[-> _]]]]); auto.
Qed.

Lemma c62_failure_told : forall (R : Rust) (T : Terminal) (args : list str),
  snd (do_main args) = Ret 1%Z ->
  (exists m, In (EvErr m) (fst (do_main args))) \/
  (exists prog w rest, args = prog :: w :: rest /\ In w split_words) /\
  In (line (lit "Not enough addresses available for this split.")) (fst (do_main args)).
Proof.
  intros R T args E. destruct (finished R T args 1%Z E) as (ms & -> & [[X _]|[[X _]|[[_ (m & Hm)]|[_ [Hs Hm]]]]]); [discriminate..| |].
  - left. exists m. apply (in_map (paint colors_enabled)) in Hm. exact Hm.
  - right. split; [exact Hs|]. apply (in_map (paint colors_enabled)) in Hm. exact Hm.
Qed.

Lemma c62_success_silent : forall (R : Rust) (T : Terminal) (args : list str) (m : errmsg),
  snd (do_main args) = Ret 0%Z -> In (EvErr m) (fst (do_main args)) ->
  m = MsgUsage /\ exists prog rest, args = prog :: lit "--help" :: rest.
Proof.
  intros R T args m E Hm. destruct (finished R T args 0%Z E) as (ms & Ef & [[_ Q]|[[_ [-> H]]|[[X _]|[X _]]]]); [| |discriminate..].
  - exfalso. rewrite Ef in Hm. apply in_map_iff in Hm. destruct Hm as (x & Ex & Hx). unfold quiet in Q. rewrite Forall_forall in Q.
    apply (Q x Hx). destruct x as [c s|s|m']; cbn [paint] in Ex; [destruct colors_enabled|..]; try discriminate. exact I.
  - rewrite Ef in Hm. destruct Hm as [[= <-]|[]]. split; [reflexivity|exact H].
Qed.
