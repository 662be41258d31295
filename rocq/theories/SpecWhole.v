(** * SpecWhole: what the program is to do with its arguments, in full.

    Of the model only data types are used: records of addresses and networks, the
    kinds of problems, colours. *)
From Verif Require Import RustBase Addr Net Parse Console.
From Verif Require Export Spec SpecText SpecShow SpecMain SpecProcess SpecRefuse SpecJoin.

(** ** Texts *)
(** [t] is the text of the address. *)
Definition spelled4 (a : addr V4) (t : str) : Prop :=
  exists bs ts, List.length bs = 4%nat /\ u8s bs /\ be_value bs = value a /\
    Forall2 (usual 10) bs ts /\ t = separated "." ts.
Definition spelled6 (a : addr V6) (t : str) : Prop :=
  exists gs ts, has_groups a gs /\ Forall2 (usual 16) gs ts /\
    ((Forall (fun g => g <> 0) gs /\ t = separated ":" ts) \/
     exists z k, first_longest_run gs z k /\
       t = separated ":" (firstn z ts) ++ lit "::" ++ separated ":" (skipn (z + k) ts)).
Definition spelled {F : family} : addr F -> str -> Prop :=
  match F as F return addr F -> str -> Prop with V4 => spelled4 | V6 => spelled6 end.

(** [t] is the text of the network: its base, a slash, and the length of the prefix
    or, if there is none, the mask. *)
Definition net_spelled {F : family} (n : net F) (t : str) : Prop :=
  exists b m, spelled (base_addr n) b /\ t = b ++ "/"%char :: m /\
    match cidr_prefix n with
    | Some p => usual 10 p m
    | None => spelled (subnet_mask n) m
    end.

(** ** The description of a network *)
(** [text] and [num] spell addresses and numbers, [wild] is the wildcard. *)
Section Page.
  Context {F : family} (text : addr F -> str) (num : N -> str).

  Definition heading (label t : str) : list mark :=
    [Frag White (fill 11 label); Frag Blue (fill (text_width F) t)].
  (** A row of one colour; one coloured by a mask. *)
  Definition plain_row (label t : str) (a : addr F) (c : color) : list mark :=
    heading label t ++ column 8 a (fun _ => c) ++ [break].
  Definition bit_row (label t : str) (a m : addr F) (class : bool) : list mark :=
    heading label t ++ column 1 a (bit_colour a m class) ++ [break].

  Definition page (n : net F) (a : option (addr F)) (wild : addr F)
    (hosts : option (addr F * addr F)) (bc : option (addr F)) (size : N) (class : option str) : list mark :=
    match a with
    | None => []
    | Some a =>
        bit_row (lit "Address:") (text a) a (subnet_mask n) false ++
        plain_row (lit "Netmask:")
          (text (subnet_mask n) ++ match cidr_prefix n with Some p => lit " = " ++ num p | None => [] end)
          (subnet_mask n) Red ++
        plain_row (lit "Wildcard:") (text wild) wild Yellow ++
        [Frag White (lit "=>"); break]
    end ++
    bit_row (lit "Network:")
      (text (base_addr n) ++ match cidr_prefix n with Some p => lit "/" ++ num p | None => [] end)
      (base_addr n) (subnet_mask n) true ++
    match hosts with
    | Some (x, y) =>
        plain_row (lit "HostMin:") (text x) x Yellow ++ plain_row (lit "HostMax:") (text y) y Yellow
    | None => [Frag White (lit "no hosts"); break]
    end ++
    match bc with
    | Some b => plain_row (lit "Broadcast:") (text b) b Yellow
    | None => [Frag White (lit "no broadcast"); break]
    end ++
    (if 2 <? size then
       heading (lit "Hosts/Net:") (num (size - 2)) ++
       (match class with Some t => [Frag Magenta t] | None => [] end) ++ [break]
     else [Frag White (lit "no hosts/net")]).
End Page.

(** [ms] is the description of [n], and of [a] within it. *)
Definition depicted {F : family} (n : net F) (a : option (addr F)) (ms : list mark) : Prop :=
  exists text num wild hosts bc k class,
    (forall x, valid x -> spelled x (text x)) /\ (forall x, usual 10 x (num x)) /\
    valid wild /\ value wild = 2 ^ width F - 1 - value (subnet_mask n) /\
    host_range n hosts /\ broadcast_of n bc /\ count n k /\ class_of F n class /\
    ms = page text num n a wild hosts bc k class.

(** ** Answers *)
(** The addresses of a network, in order. *)
Definition listed {F : family} (n : net F) (l : list (addr F)) : Prop :=
  (forall x, In x l <-> valid x /\ member n x) /\ StronglySorted (fun x y : addr F => value x < value y) l.

(** [r] is what minimizing makes of [l]. *)
Definition minimized {F : family} (l r : list (net F)) : Prop := exists o, outermost l o /\ joined o r.

(** CIDR networks with the addresses from [lo] to [hi]. *)
Definition fills (F : family) (lo hi : N) (r : list (net F)) : Prop :=
  Forall (fun n => exists p, is_cidr n p) r /\
  forall c : addr F, valid c -> (lo <= value c <= hi <-> exists n, In n r /\ member n c).
(** As few of them as possible, in order. *)
Definition ranged (F : family) (lo hi : N) (r : list (net F)) : Prop :=
  fills F lo hi r /\ (forall r', fills F lo hi r' -> (List.length r <= List.length r')%nat) /\
  StronglySorted (fun n n' : net F => value (base_addr n) < value (base_addr n')) r.

(** [r] is what resizing [n] to the mask [m] gives: [o] compares the lengths of the masks. *)
Definition resized {F : family} (n : net F) (m : addr F) (r : list (net F)) (o : comparison) : Prop :=
  let h := host_bits (subnet_mask n) in
  let pos := position (subnet_mask n) (base_addr n) in
  o = (h ?= host_bits m) /\ Forall (fun e => wf_net e /\ subnet_mask e = m) r /\
  match o with
  | Gt =>
      (forall c : addr F, valid c ->
         ((exists e, In e r /\ member e c) <-> pos <= position m c < pos + 2 ^ h)) /\
      StronglySorted (fun e e' : net F => value (base_addr e) < value (base_addr e')) r
  | _ => exists e, r = [e] /\ position m (base_addr e) = pos - pos mod 2 ^ host_bits m
  end.

(** [r] are networks for [cs] hosts each: as small as possible, without gaps, more
    hosts first. *)
Definition placed {F : family} (n : net F) (cs : list Z) (r : list (net F)) : Prop :=
  Forall2 (fun c m => piece c <= width F /\ is_cidr m (width F - piece c)) cs r /\
  disjoint_nets r /\
  (forall a : addr F, valid a ->
     ((exists m, In m r /\ member m a) <-> run_start n cs <= value a < run_start n cs + total cs)) /\
  forall i j c c' m m',
    nth_error cs i = Some c -> nth_error r i = Some m ->
    nth_error cs j = Some c' -> nth_error r j = Some m' ->
    (c' < c)%Z -> value (base_addr m) < value (base_addr m').

(** ** Runs *)
(** The lines that split and resize put before what they found. *)
Definition split_page (first : list mark) (cs : list Z) (mss : list (list mark)) (ms : list mark) : Prop :=
  exists ts, Forall2 (fun c t => usual 10 (Z.to_N c) t) cs ts /\
    ms = says (lit "Subnet to split:") :: first ++ break ::
      flat_map (fun tm => says (lit "Subnet for " ++ fst tm ++ lit " hosts:") :: snd tm ++ [break]) (combine ts mss).
Definition resize_page (first : list mark) (o : comparison) (mss : list (list mark)) (ms : list mark) : Prop :=
  exists ts, Forall2 (fun k t => usual 10 (N.of_nat k) t) (seq 1 (List.length mss)) ts /\
    ms = says (lit "Original network:") :: first ++ break ::
      flat_map (fun tm =>
          says (match o with
                | Lt => lit "Supernet:"
                | Eq => lit "Same-sized net:"
                | Gt => lit "Subnet " ++ fst tm ++ lit ":"
                end) :: snd tm ++ [break]) (combine ts mss).

(** A word for a command with a number of arguments it does not take. *)
Definition miscounted (w : str) (rest : list str) : Prop :=
  (In w derange_words \/ In w resize_words) /\ List.length rest <> 2%nat \/
  In w split_words /\ (List.length rest < 2)%nat \/
  (In w minimize_words \/ In w enumerate_words) /\ rest = [].

(** Arguments that do not start with a command. *)
Definition no_command (ss : list str) : Prop := exists w rest, ss = w :: rest /\ ~ In w command_words.

Definition sensible (s : str) : Prop := exists F, of_family F s.

(** [duty bits args ms z]: given [args], the program is to send out [ms] and to exit
    with status [z], on a target of word size [bits]. *)
Section Duty.
Context {bits : N}.
Inductive duty : list str -> list mark -> Z -> Prop :=
(* in general *)
| duty_nothing args : (List.length args < 2)%nat -> duty args [Problem MsgUsage] 1%Z
| duty_miscounted prog w rest : miscounted w rest -> duty (prog :: w :: rest) [Problem MsgUsage] 1%Z
| duty_help prog rest : duty (prog :: lit "--help" :: rest) [Problem MsgUsage] 0%Z
| duty_colours prog rest :
    duty (prog :: lit "--color-test" :: rest) (map (fun p => Frag (snd p) (fill 20 (fst p))) palette) 0%Z
(* describing networks *)
| duty_show prog ss mss :
    no_command ss ->
    Forall2 (fun s ms => exists F (a : addr F) n, means F s a n /\ depicted n (Some a) ms) ss mss ->
    duty (prog :: ss) (spaced mss) 0%Z
| duty_show_unread prog pre s post e :
    no_command (pre ++ s :: post) -> Forall sensible pre -> netspec_refused bits s e ->
    duty (prog :: pre ++ s :: post) [Problem (MsgError e)] 1%Z
(* listing addresses *)
| duty_enumerate prog w ss mss z :
    In w enumerate_words -> ss <> [] ->
    Forall2 (fun s ms =>
      (exists F (a : addr F) n l, means F s a n /\ listed n l /\
         Forall2 (fun x m => exists t, spelled x t /\ m = says t) l ms) \/
      (exists e, netspec_refused bits s e /\ ms = [Problem (MsgNetwork s e)])) ss mss ->
    (Forall sensible ss /\ z = 0%Z \/ ~ Forall sensible ss /\ z = 1%Z) ->
    duty (prog :: w :: ss) (List.concat mss) z
(* minimizing *)
| duty_minimize F prog w ss l r ts :
    In w minimize_words -> ss <> [] ->
    Forall2 (fun s (n : net F) => exists a, means F s a n) ss l -> minimized l r -> Forall2 net_spelled r ts ->
    duty (prog :: w :: ss) (map says ts) 0%Z
| duty_minimize_unread F prog w pre s post e :
    In w minimize_words -> Forall (of_family F) pre -> netspec_refused bits s e ->
    duty (prog :: w :: pre ++ s :: post) [Problem (MsgParsing e)] 1%Z
| duty_minimize_mixed F G prog w pre s post :
    In w minimize_words -> pre <> [] -> Forall (of_family F) pre -> of_family G s -> G <> F ->
    duty (prog :: w :: pre ++ s :: post) [Problem MsgMixing] 1%Z
(* ranges *)
| duty_derange F prog w s t (a b : addr F) r ts :
    In w derange_words -> address_text F s a -> address_text F t b -> N.max (value a) (value b) <> top F ->
    ranged F (N.min (value a) (value b)) (N.max (value a) (value b)) r -> Forall2 net_spelled r ts ->
    duty [prog; w; s; t] (map says ts) 0%Z
| duty_derange_first prog w s t e :
    In w derange_words -> address_refused s e -> duty [prog; w; s; t] [Problem (MsgFirstAddr e)] 1%Z
| duty_derange_second F prog w s t (a : addr F) e :
    In w derange_words -> address_text F s a -> address_refused t e ->
    duty [prog; w; s; t] [Problem (MsgSecondAddr e)] 1%Z
| duty_derange_mixed F G prog w s t (a : addr F) (b : addr G) :
    In w derange_words -> address_text F s a -> address_text G t b -> F <> G ->
    duty [prog; w; s; t] [Problem MsgVersions] 1%Z
(* resizing *)
| duty_resize F prog w s t (a : addr F) n m r o first mss ms :
    In w resize_words -> means F s a n -> mask_text F t m -> resized n m r o ->
    depicted n None first -> Forall2 (fun e ms => depicted e None ms) r mss -> resize_page first o mss ms ->
    duty [prog; w; s; t] ms 0%Z
| duty_resize_network prog w s t e :
    In w resize_words -> netspec_refused bits s e -> duty [prog; w; s; t] [Problem (MsgNetspec s e)] 1%Z
| duty_resize_unread F prog w s t (a : addr F) n e :
    In w resize_words -> means F s a n -> subnet_refused bits t e ->
    duty [prog; w; s; t] [Problem (MsgSubnet t e)] 1%Z
| duty_resize_prefix F prog w s t (a : addr F) n p :
    In w resize_words -> means F s a n -> written 10 t p -> width F < p < 2 ^ bits ->
    duty [prog; w; s; t] [Problem (MsgCidrMax p (width F))] 1%Z
| duty_resize_mixed F G prog w s t (a : addr F) n (m : addr G) :
    In w resize_words -> means F s a n -> address_text G t m -> G <> F ->
    duty [prog; w; s; t] [Problem (match F with V4 => MsgMask6ForNet4 | V6 => MsgMask4ForNet6 end)] 1%Z
(* splitting *)
| duty_split F prog w s ss (a : addr F) n cs r h us first mss ms ts :
    In w split_words -> means F s a n -> counts_text ss cs -> placed n cs r ->
    split_inside n cs -> highest n h ->
    let y := run_start n cs + total cs in
    N.max y (value h) <> top F -> ranged F (N.min y (value h)) (N.max y (value h)) us ->
    depicted n None first -> Forall2 (fun e ms => depicted e None ms) r mss -> split_page first cs mss ms ->
    Forall2 net_spelled us ts ->
    duty (prog :: w :: s :: ss) (ms ++ says (lit "Unused networks:") :: map says ts) 0%Z
| duty_split_small F prog w s ss (a : addr F) n cs r first mss ms :
    In w split_words -> means F s a n -> counts_text ss cs -> placed n cs r ->
    run_start n cs + total cs <= top F -> ~ split_inside n cs ->
    depicted n None first -> Forall2 (fun e ms => depicted e None ms) r mss -> split_page first cs mss ms ->
    duty (prog :: w :: s :: ss) (ms ++ [says (lit "Network is too small")]) 0%Z
| duty_split_impossible F prog w s ss (a : addr F) n cs first ms :
    In w split_words -> means F s a n -> counts_text ss cs -> top F < run_start n cs + total cs ->
    depicted n None first -> split_page first [] [] ms ->
    duty (prog :: w :: s :: ss) (ms ++ [says (lit "Not enough addresses available for this split.")]) 1%Z
| duty_split_network prog w s ss cs e :
    In w split_words -> counts_text ss cs -> netspec_refused bits s e ->
    duty (prog :: w :: s :: ss) [Problem (MsgSplitNetspec s e)] 1%Z
| duty_split_count prog w s pre cs t post :
    In w split_words -> Forall2 count_text pre cs -> Forall (fun c => 0 <= c)%Z cs -> (forall c, ~ count_text t c) ->
    duty (prog :: w :: s :: pre ++ t :: post) [Problem (MsgHostCount t (count_problem t))] 1%Z
| duty_split_negative prog w s pre cs t c post :
    In w split_words -> Forall2 count_text pre cs -> Forall (fun c => 0 <= c)%Z cs -> count_text t c -> (c < 0)%Z ->
    duty (prog :: w :: s :: pre ++ t :: post) [Problem MsgHostCountNegative] 1%Z.
End Duty.
Arguments duty bits : clear implicits.

(** Arguments that do not ask for a split with one host count twice: which of two
    equal requests gets which network is left open. *)
Definition settled (args : list str) : Prop :=
  forall prog w s ss cs, args = prog :: w :: s :: ss -> In w split_words -> counts_text ss cs -> NoDup cs.

(** What marks put on a stdout that takes no colours; the problems among them. *)
Definition ink (m : mark) : str :=
  match m with Frag _ s => s ++ newline | Plain s => s | Problem _ => [] end.
Definition faults (ms : list mark) : list errmsg :=
  flat_map (fun m => match m with Problem e => [e] | _ => [] end) ms.
