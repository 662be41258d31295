(** * P_Main: whole runs of the program (C60, C62) *)
From Verif Require Import RustBase Addr Net Parse Console ShowNet Main Spec SpecText SpecIO SpecShow SpecMain Demo Pf_Main.

(** ** C60: colour support *)
(** What is sent out does not depend on colour support, but for the line break
    behind each fragment where there is none. *)
Theorem C60_same_marks : forall (R : Rust) (args : list str),
  exists ms r, forall T : Terminal, do_main args = (map (paint colors_enabled) ms, r).
Proof. exact c60_same_marks. Qed.
Print Assumptions C60_same_marks.
Example C60_same_marks_ex :
  let ms := [Frag White (lit "no hosts/net")] in
  map (paint true) ms = [EvStyled White (lit "no hosts/net")] /\
  map (paint false) ms = [EvOut (lit "no hosts/net" ++ newline)].
Proof. ex. Qed.

Theorem C60_same_text : forall (R : Rust) (T T' : Terminal) (args : list str),
  let text := fun es => filter (fun c => negb (Ascii.eqb c "010"%char)) (stdout es) in
  let messages := fun es => flat_map (fun e => match e with EvErr m => [m] | _ => [] end) es in
  let one := @do_main R T args in
  let other := @do_main R T' args in
  text (fst one) = text (fst other) /\ messages (fst one) = messages (fst other) /\ snd one = snd other.
Proof. exact c60_same_text. Qed.
Print Assumptions C60_same_text.
Example C60_same_text_ex :
  filter (fun c => negb (Ascii.eqb c "010"%char)) (lit "a" ++ newline ++ lit "b") = lit "ab".
Proof. ex. Qed.

Theorem C60_same_lines_refuted : forall (R : Rust), exists (T T' : Terminal) (args : list str),
  stdout (fst (@do_main R T args)) <> stdout (fst (@do_main R T' args)).
Proof. exact c60_same_lines_refuted. Qed.
Print Assumptions C60_same_lines_refuted.
Example C60_same_lines_refuted_ex :
  List.length (stdout (fst (@do_main debug_env colourful [lit "ripcalc"; lit "--color-test"]))) = 320%nat /\
  List.length (stdout (fst (@do_main debug_env plain [lit "ripcalc"; lit "--color-test"]))) = 336%nat.
Proof. ex. Qed.

(** ** C62: exit status, messages and output *)
Theorem C62_status : forall (R : Rust) (T : Terminal) (args : list str) (z : Z),
  snd (do_main args) = Ret z -> z = 0%Z \/ z = 1%Z.
Proof. exact c62_status. Qed.
Print Assumptions C62_status.
Example C62_status_ex :
  snd (@do_main debug_env plain [lit "ripcalc"; lit "10.0.0.0/8"; lit "x"]) = Ret 1%Z.
Proof. ex. Qed.

(** Status 1 comes with a message, save for a split that does not fit; status 0
    comes without, save for --help. *)
Theorem C62_failure_told : forall (R : Rust) (T : Terminal) (args : list str),
  snd (do_main args) = Ret 1%Z ->
  (exists m, In (EvErr m) (fst (do_main args))) \/
  (exists prog w rest, args = prog :: w :: rest /\ In w split_words) /\
  In (line (lit "Not enough addresses available for this split.")) (fst (do_main args)).
Proof. exact c62_failure_told. Qed.
Print Assumptions C62_failure_told.
Example C62_failure_told_ex :
  fst (@do_main debug_env plain [lit "ripcalc"; lit "10.0.0.0/8"; lit "x"]) = [EvErr (MsgError (Unrecognized (lit "x")))].
Proof. ex. Qed.

Theorem C62_success_silent : forall (R : Rust) (T : Terminal) (args : list str) (m : errmsg),
  snd (do_main args) = Ret 0%Z -> In (EvErr m) (fst (do_main args)) ->
  m = MsgUsage /\ exists prog rest, args = prog :: lit "--help" :: rest.
Proof. exact c62_success_silent. Qed.
Print Assumptions C62_success_silent.
Example C62_success_silent_ex :
  @do_main debug_env plain [lit "ripcalc"; lit "--help"; lit "x"] = ([EvErr MsgUsage], Ret 0%Z).
Proof. ex. Qed.

(** Wrong numbers of arguments. *)
Theorem C62_usage : forall (R : Rust) (args : list str),
  (List.length args < 2)%nat \/
  (exists prog w rest, args = prog :: w :: rest /\
     ((In w derange_words \/ In w resize_words) /\ List.length rest <> 2%nat \/
      In w split_words /\ (List.length rest < 2)%nat \/
      (In w minimize_words \/ In w enumerate_words) /\ rest = [])) ->
  does args [Problem MsgUsage] 1%Z.
Proof. exact c62_usage. Qed.
Print Assumptions C62_usage.
Example C62_usage_ex :
  @do_main debug_env plain [lit "ripcalc"; lit "-d"; lit "1.2.3.4"] = ([EvErr MsgUsage], Ret 1%Z).
Proof. ex. Qed.

(** *** Describing networks *)
Theorem C62_show : forall (R : Rust) (prog : str) (ss : list str),
  ss <> [] -> (forall w, hd_error ss = Some w -> ~ In w command_words) ->
  (forall s, In s ss -> ~ nonsense s) ->
  exists mss,
    Forall2 (fun s ms => exists F (a : addr F) n, means F s a n /\ described n (Some a) ms) ss mss /\
    does (prog :: ss) (spaced mss) 0%Z.
Proof. exact c62_show. Qed.
Print Assumptions C62_show.
Example C62_show_ex :
  match @do_main debug_env colourful [lit "ripcalc"; lit "10.1.2.3/32"; lit "fe80::1/64"] with
  | (es, Ret 0%Z) => firstn 2 es = [EvStyled White (lit "Address:   "); EvStyled Blue (lit "10.1.2.3             ")]
  | _ => False
  end.
Proof. ex. Qed.

Theorem C62_show_error : forall (R : Rust) (prog : str) (pre post : list str) (s : str),
  (forall w, hd_error (pre ++ s :: post) = Some w -> ~ In w command_words) ->
  (forall t, In t pre -> ~ nonsense t) -> nonsense s ->
  exists e, parse_netspec s = Ret (RErr e) /\
    does (prog :: pre ++ s :: post) [Problem (MsgError e)] 1%Z.
Proof. exact c62_show_error. Qed.
Print Assumptions C62_show_error.
Example C62_show_error_ex :
  @do_main debug_env plain [lit "ripcalc"; lit "10.1.2.3/32"; lit "10.1.2.3/33"; lit "x"] =
    ([EvErr (MsgError (CidrRange 33 32))], Ret 1%Z).
Proof. ex. Qed.

(** *** Listing addresses *)
Theorem C62_enumerate : forall (R : Rust) (prog w : str) (ss : list str),
  In w enumerate_words -> ss <> [] ->
  exists mss z,
    Forall2 (fun s ms =>
      (exists F (a : addr F) n l, means F s a n /\
         (forall x, In x l <-> valid x /\ member n x) /\
         StronglySorted (fun x y : addr F => value x < value y) l /\
         ms = map (fun x => says (display x)) l) \/
      (nonsense s /\ exists e, parse_netspec s = Ret (RErr e) /\ ms = [Problem (MsgNetwork s e)])) ss mss /\
    (z = 0%Z /\ (forall s, In s ss -> ~ nonsense s) \/ z = 1%Z /\ exists s, In s ss /\ nonsense s) /\
    does (prog :: w :: ss) (List.concat mss) z.
Proof. exact c62_enumerate. Qed.
Print Assumptions C62_enumerate.
Example C62_enumerate_ex :
  @do_main debug_env plain [lit "ripcalc"; lit "-e"; lit "10.1.2.3/31"; lit "x"; lit "fe80::1/128"] =
    ([line (lit "10.1.2.2"); line (lit "10.1.2.3"); EvErr (MsgNetwork (lit "x") (Unrecognized (lit "x")));
      line (lit "fe80::1")], Ret 1%Z).
Proof. ex. Qed.

(** *** Minimizing *)
Theorem C62_minimize : forall (R : Rust) (F : family) (prog w : str) (ss : list str) (l : list (addr F * net F)),
  In w minimize_words -> ss <> [] -> Forall2 (fun s an => means F s (fst an) (snd an)) ss l ->
  exists r, minimize_subnets (map snd l) = Ret r /\
    does (prog :: w :: ss) (map (fun n => says (net_display n)) r) 0%Z.
Proof. exact c62_minimize. Qed.
Print Assumptions C62_minimize.
Example C62_minimize_ex :
  @do_main debug_env plain [lit "ripcalc"; lit "-m"; lit "10.1.2.3/25"; lit "10.1.2.130/25"] =
    ([line (lit "10.1.2.0/24")], Ret 0%Z).
Proof. ex. Qed.

Theorem C62_minimize_error : forall (R : Rust) (F : family) (prog w : str) (pre post : list str) (s : str),
  In w minimize_words -> Forall (of_family F) pre ->
  (nonsense s -> exists e, parse_netspec s = Ret (RErr e) /\
     does (prog :: w :: pre ++ s :: post) [Problem (MsgParsing e)] 1%Z) /\
  (pre <> [] -> forall G, G <> F -> of_family G s -> does (prog :: w :: pre ++ s :: post) [Problem MsgMixing] 1%Z).
Proof. exact c62_minimize_error. Qed.
Print Assumptions C62_minimize_error.
Example C62_minimize_error_ex :
  @do_main debug_env plain [lit "ripcalc"; lit "-m"; lit "10.1.2.3/25"; lit "::/0"; lit "x"] = ([EvErr MsgMixing], Ret 1%Z).
Proof. ex. Qed.

(** *** Ranges *)
Theorem C62_derange : forall (R : Rust) (F : family) (prog w s t : str) (a b : addr F),
  In w derange_words -> address_text F s a -> address_text F t b ->
  N.max (value a) (value b) <> top F ->
  exists r, range_to_subnets a b = Ret r /\
    does [prog; w; s; t] (map (fun n => says (net_display n)) r) 0%Z.
Proof. exact c62_derange. Qed.
Print Assumptions C62_derange.
Example C62_derange_ex :
  @do_main debug_env plain [lit "ripcalc"; lit "-d"; lit "10.1.2.6"; lit "10.1.2.3"] =
    ([line (lit "10.1.2.3/32"); line (lit "10.1.2.4/31"); line (lit "10.1.2.6/32")], Ret 0%Z).
Proof. ex. Qed.

Theorem C62_derange_error : forall (R : Rust) (F G : family) (prog w s t : str) (a : addr F) (b : addr G),
  In w derange_words ->
  (no_address s -> exists e, parse_addr s = Ret (RErr e) /\ does [prog; w; s; t] [Problem (MsgFirstAddr e)] 1%Z) /\
  (address_text F s a -> no_address t ->
     exists e, parse_addr t = Ret (RErr e) /\ does [prog; w; s; t] [Problem (MsgSecondAddr e)] 1%Z) /\
  (address_text F s a -> address_text G t b -> F <> G -> does [prog; w; s; t] [Problem MsgVersions] 1%Z).
Proof. exact c62_derange_error. Qed.
Print Assumptions C62_derange_error.
Example C62_derange_error_ex :
  @do_main debug_env plain [lit "ripcalc"; lit "-d"; lit "10.1.2.6"; lit "::1"] = ([EvErr MsgVersions], Ret 1%Z).
Proof. ex. Qed.

(** *** Resizing *)
Theorem C62_resize : forall (R : Rust) (F : family) (prog w s t : str) (a : addr F) (n : net F) (m : addr F),
  In w resize_words -> means F s a n -> mask_text F t m ->
  exists r o first mss, resize_network n m = Ret (r, o) /\
    described n None first /\ Forall2 (fun e ms => described e None ms) r mss /\
    does [prog; w; s; t] (resize_marks first o mss) 0%Z.
Proof. exact c62_resize. Qed.
Print Assumptions C62_resize.
Example C62_resize_ex :
  match @do_main debug_env colourful [lit "ripcalc"; lit "-r"; lit "10.1.2.3/24"; lit "25"] with
  | (es, Ret 0%Z) => filter (fun e => match e with EvOut s => negb (str_eqb s newline) | _ => false end) es =
      [line (lit "Original network:"); line (lit "Subnet 1:"); line (lit "Subnet 2:")]
  | _ => False
  end.
Proof. ex. Qed.

Theorem C62_resize_error : forall (R : Rust) (F : family) (prog w s t : str) (a : addr F) (n : net F),
  In w resize_words ->
  (nonsense s -> exists e, parse_netspec s = Ret (RErr e) /\ does [prog; w; s; t] [Problem (MsgNetspec s e)] 1%Z) /\
  (means F s a n -> no_address t -> (forall p, p < 2 ^ usize_bits -> ~ written 10 t p) ->
     exists e, parse_subnet t = Ret (RErr e) /\ does [prog; w; s; t] [Problem (MsgSubnet t e)] 1%Z) /\
  (means F s a n -> forall p, written 10 t p -> width F < p < 2 ^ usize_bits ->
     does [prog; w; s; t] [Problem (MsgCidrMax p (width F))] 1%Z) /\
  (means F s a n -> forall G (m : addr G), G <> F -> address_text G t m ->
     does [prog; w; s; t] [Problem (match F with V4 => MsgMask6ForNet4 | V6 => MsgMask4ForNet6 end)] 1%Z).
Proof. exact c62_resize_error. Qed.
Print Assumptions C62_resize_error.
Example C62_resize_error_ex :
  @do_main debug_env colourful [lit "ripcalc"; lit "-r"; lit "10.1.2.3/24"; lit "33"] = ([EvErr (MsgCidrMax 33 32)], Ret 1%Z) /\
  @do_main debug_env colourful [lit "ripcalc"; lit "-r"; lit "10.1.2.3/24"; lit "-3"] =
    ([EvErr (MsgSubnet (lit "-3") (CidrParseError IE_InvalidDigit))], Ret 1%Z).
Proof. ex. Qed.

(** *** Splitting *)
Theorem C62_split : forall (R : Rust) (F : family) (prog w s : str) (ss : list str) (a : addr F) (n : net F) (cs : list Z) (h : addr F),
  In w split_words -> means F s a n -> counts_text ss cs -> highest n h ->
  let y := run_start n cs + total cs in
  exists first, described n None first /\
    (top F < y -> split_subnet n cs = Ret None /\
       does (prog :: w :: s :: ss)
         (split_marks first [] [] ++ [says (lit "Not enough addresses available for this split.")]) 1%Z) /\
    (y <= top F -> exists r mss, split_subnet n cs = Ret (Some r) /\ Forall2 (fun e ms => described e None ms) r mss /\
       (~ split_inside n cs ->
          does (prog :: w :: s :: ss) (split_marks first cs mss ++ [says (lit "Network is too small")]) 0%Z) /\
       (split_inside n cs -> N.max y (value h) <> top F -> exists b us, valid b /\ value b = y /\
          range_to_subnets b h = Ret us /\
          does (prog :: w :: s :: ss)
            (split_marks first cs mss ++ says (lit "Unused networks:") :: map (fun u => says (net_display u)) us) 0%Z)).
Proof. exact c62_split. Qed.
Print Assumptions C62_split.
Example C62_split_ex :
  match @do_main debug_env colourful [lit "ripcalc"; lit "-s"; lit "10.1.2.3/24"; lit "+1_00"; lit "10"] with
  | (es, Ret 0%Z) => filter (fun e => match e with EvOut s => negb (str_eqb s newline) | _ => false end) es =
      [line (lit "Subnet to split:"); line (lit "Subnet for 100 hosts:"); line (lit "Subnet for 10 hosts:");
       line (lit "Unused networks:"); line (lit "10.1.2.144/28"); line (lit "10.1.2.160/27"); line (lit "10.1.2.192/26")]
  | _ => False
  end.
Proof. ex. Qed.

Theorem C62_split_error : forall (R : Rust) (F : family) (prog w s : str) (pre post : list str) (t : str) (cs : list Z),
  In w split_words ->
  (nonsense s -> counts_text pre cs ->
     exists e, parse_netspec s = Ret (RErr e) /\ does (prog :: w :: s :: pre) [Problem (MsgSplitNetspec s e)] 1%Z) /\
  (pre = [] \/ counts_text pre cs ->
     ((forall c, ~ count_text t c) -> does (prog :: w :: s :: pre ++ t :: post) [Problem (MsgHostCount t (count_problem t))] 1%Z) /\
     (forall c, count_text t c -> (c < 0)%Z -> does (prog :: w :: s :: pre ++ t :: post) [Problem MsgHostCountNegative] 1%Z)).
Proof. exact c62_split_error. Qed.
Print Assumptions C62_split_error.
Example C62_split_error_ex :
  @do_main debug_env colourful [lit "ripcalc"; lit "-s"; lit "x"; lit "5"; lit "_5"; lit "-1"] =
    ([EvErr (MsgHostCount (lit "_5") IE_InvalidDigit)], Ret 1%Z) /\
  @do_main debug_env colourful [lit "ripcalc"; lit "-s"; lit "x"; lit "5"; lit "-1"] =
    ([EvErr MsgHostCountNegative], Ret 1%Z).
Proof. ex. Qed.

(** *** Which runs end *)
Theorem C62_ends_iff : forall (R : Rust) (T : Terminal) (args : list str),
  (exists z, snd (do_main args) = Ret z) <-> ~ derange_to_top args /\ ~ split_to_top args.
Proof. exact c62_ends_iff. Qed.
Print Assumptions C62_ends_iff.
Example C62_ends_iff_ex :
  snd (@do_main debug_env plain [lit "ripcalc"; lit "-d"; lit "255.255.255.255"; lit "1.2.3.4"]) = Panic /\
  snd (@do_main debug_env plain [lit "ripcalc"; lit "-s"; lit "255.255.255.0/24"; lit "5"]) = Panic /\
  snd (@do_main debug_env plain [lit "ripcalc"; lit "-s"; lit "255.255.254.0/24"; lit "254"]) = Ret 0%Z.
Proof. ex. Qed.

(** ** C63: host counts *)
Theorem C63_host_count : forall (s : str) (c : Z), parse_bigint s = ROk c <-> count_text s c.
Proof. exact c63_host_count. Qed.
Print Assumptions C63_host_count.
Example C63_host_count_ex :
  parse_bigint (lit "1_000") = ROk 1000%Z /\ parse_bigint (lit "-5__") = ROk (-5)%Z /\
  parse_bigint (lit "+5") = ROk 5%Z.
Proof. ex. Qed.

Theorem C63_host_count_error : forall (s : str) (e : int_error),
  parse_bigint s = RErr e <-> (forall c, ~ count_text s c) /\ e = count_problem s.
Proof. exact c63_host_count_error. Qed.
Print Assumptions C63_host_count_error.
Example C63_host_count_error_ex :
  parse_bigint (lit "+-5") = RErr IE_InvalidDigit /\ parse_bigint (lit "-_5") = RErr IE_InvalidDigit /\
  parse_bigint (lit "-+") = RErr IE_InvalidDigit /\ parse_bigint (lit "+") = RErr IE_Empty /\
  parse_bigint [] = RErr IE_Empty.
Proof. ex. Qed.
