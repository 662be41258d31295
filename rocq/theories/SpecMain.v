(** * SpecMain: vocabulary for whole runs of the program *)
From Verif Require Import RustBase Addr Net Parse Console ShowNet Main Spec SpecText SpecIO SpecShow.

(** The program, given [args] (with its name in front), sends out [ms] and exits
    with status [z], whatever the terminal. *)
Definition does `{Rust} (args : list str) (ms : list mark) (z : Z) : Prop :=
  forall T : Terminal, do_main args = (map (paint colors_enabled) ms, Ret z).

(** [s] specifies the address [a] and the network [n]. *)
Definition means (F : family) (s : str) (a : addr F) (n : net F) : Prop :=
  exists A w M mask, s = spec_text A w M /\ addr_shape F A /\ reads F A a /\
    describes F w M mask /\ network_of n a mask.
Definition nonsense (s : str) : Prop := forall F a n, ~ means F s a n.

(** [s] specifies a network of the family. *)
Definition of_family (F : family) (s : str) : Prop := exists a n, means F s a n.

(** [s] is the text of an address; of none. *)
Definition address_text (F : family) (s : str) (a : addr F) : Prop := s <> [] /\ reads F s a.
Definition no_address (s : str) : Prop := forall F a, ~ address_text F s a.

(** [ms] is the description of [n], and of [a] within it. *)
Definition described `{Rust} {F : family} (n : net F) (a : option (addr F)) (ms : list mark) : Prop :=
  exists hosts bc k class,
    host_range n hosts /\ broadcast_of n bc /\ count n k /\ class_of F n class /\
    ms = report n a hosts bc k class.

(** Blocks with an empty line between them. *)
Fixpoint spaced (blocks : list (list mark)) : list mark :=
  match blocks with
  | [] => []
  | b :: blocks' => b ++ match blocks' with [] => [] | _ => break :: spaced blocks' end
  end.

(** One line. *)
Definition says (s : str) : mark := Plain (s ++ newline).

(** The words that choose a command. *)
Definition minimize_words : list str := [lit "-m"; lit "--minimize"].
Definition derange_words : list str := [lit "-d"; lit "--derange"].
Definition split_words : list str := [lit "-s"; lit "--split"].
Definition resize_words : list str := [lit "-r"; lit "--resize"].
Definition enumerate_words : list str := [lit "-e"; lit "--enumerate"].
Definition other_words : list str := [lit "--color-test"; lit "--help"].
Definition command_words : list str :=
  minimize_words ++ derange_words ++ split_words ++ resize_words ++ enumerate_words ++ other_words.

(** The last address of a family. *)
Definition top (F : family) : N := 2 ^ width F - 1.

(** The text of a host count: a sign, then decimal digits, which underscores may
    follow. *)
Definition count_text (s : str) (c : Z) : Prop :=
  exists sign digits k,
    s = sign ++ digits /\ hd_error digits <> Some "_"%char /\
    numeral 10 (filter (fun x => negb (Ascii.eqb x "_")) digits) = Some k /\
    (In sign [[]; lit "+"] /\ c = Z.of_N k \/ sign = lit "-" /\ c = (- Z.of_N k)%Z).

(** What is wrong with a text that is no host count: it holds nothing but a sign,
    or something else is in it. *)
Definition count_problem (s : str) : int_error :=
  if existsb (str_eqb s) [[]; lit "+"; lit "-"] then IE_Empty else IE_InvalidDigit.

(** A list of host counts: not empty, none negative. *)
Definition counts_text (ss : list str) (cs : list Z) : Prop :=
  ss <> [] /\ Forall2 count_text ss cs /\ Forall (fun c => 0 <= c)%Z cs.

(** [s] gives the mask [m] as the argument of resize. *)
Definition mask_text (F : family) (s : str) (m : addr F) : Prop :=
  address_text F s m \/
  (exists p, written 10 s p /\ p <= width F /\ valid m /\ value m = prefix_mask F p).

(** What split reports of the networks found. *)
Definition split_marks (first : list mark) (cs : list Z) (mss : list (list mark)) : list mark :=
  says (lit "Subnet to split:") :: first ++ break ::
  flat_map (fun cm => says (lit "Subnet for " ++ fmt_Z (fst cm) ++ lit " hosts:") :: snd cm ++ [break])
           (combine cs mss).

(** What resize reports. *)
Definition resize_marks (first : list mark) (o : comparison) (mss : list (list mark)) : list mark :=
  says (lit "Original network:") :: first ++ break ::
  flat_map (fun im =>
      says (match o with
            | Lt => lit "Supernet:"
            | Eq => lit "Same-sized net:"
            | Gt => lit "Subnet " ++ fmt_dec (N.of_nat (fst im)) ++ lit ":"
            end) :: snd im ++ [break])
    (combine (seq 1 (List.length mss)) mss).

(** The split succeeds, and ends inside the network. *)
Definition split_inside {F : family} (n : net F) (cs : list Z) : Prop :=
  run_start n cs + total cs <= top F /\
  exists a : addr F, valid a /\ member n a /\ value a + 1 = run_start n cs + total cs.

(** The runs that do not end: ranges up to the last address, and splits where the
    rest of the network is such a range. *)
Definition derange_to_top (args : list str) : Prop :=
  exists F prog w s t (a b : addr F), args = [prog; w; s; t] /\ In w derange_words /\
    address_text F s a /\ address_text F t b /\ N.max (value a) (value b) = top F.
Definition split_to_top (args : list str) : Prop :=
  exists F prog w s ss (a : addr F) (n : net F) cs h, args = prog :: w :: s :: ss /\ In w split_words /\
    counts_text ss cs /\ means F s a n /\ split_inside n cs /\ highest n h /\
    N.max (run_start n cs + total cs) (value h) = top F.
