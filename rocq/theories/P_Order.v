(** * P_Order: arguments in another order (C101) *)
From Verif Require Import RustBase Addr Net Parse Split Console Main Messages Process Family Spec SpecText SpecShow SpecMain SpecProcess SpecOrdering Demo Pf_Order.

(** ** C101: the order of the arguments matters no more than it must *)
(** Host counts in another order, in another build: each gets the network it got before,
    up to exchanges among those for the same count. *)
Theorem C101_split_subnet : forall (R R' : Rust) (F : family) (n : net F) (cs cs' : list Z),
  wf_net n -> Permutation cs cs' ->
  match @split_subnet R (addr F) (@addr_ops R F) n cs, @split_subnet R' (addr F) (@addr_ops R' F) n cs' with
  | Ret (Some r), Ret (Some r') => Permutation (combine cs r) (combine cs' r')
  | Ret None, Ret None => True
  | _, _ => False
  end.
Proof. exact c101_split_subnet. Qed.
Print Assumptions C101_split_subnet.
Example C101_split_subnet_ex :
  let n := @new_with_mask (addr V4) ipv4_ops (ip4 10 0 0 0) (ip4 255 255 255 0) in
  match @split_subnet debug_env (addr V4) ipv4_ops n [5; 100; 20]%Z, @split_subnet reverse_env (addr V4) ipv4_ops n [100; 20; 5]%Z with
  | Ret (Some [a; b; c]), Ret (Some [b'; c'; a']) => a = a' /\ b = b' /\ c = c' /\ base_addr a = ip4 10 0 0 160
  | _, _ => False
  end.
Proof. ex. Qed.

(** The whole run: the same network first, the same parts in their new order, the same
    rest, the same end. *)
Theorem C101_split : forall (R : Rust) (F : family) (prog prog' w w' s : str) (ss ss' : list str) (a : addr F) (n : net F) (cs cs' : list Z),
  In w split_words -> In w' split_words -> means F s a n -> counts_text ss cs -> counts_text ss' cs' -> Permutation cs cs' ->
  exists first mss mss' rest r, Permutation (combine cs mss) (combine cs' mss') /\
    forall T : Terminal,
      do_main (prog :: w :: s :: ss) = (map (paint colors_enabled) (split_marks first cs mss ++ rest), r) /\
      do_main (prog' :: w' :: s :: ss') = (map (paint colors_enabled) (split_marks first cs' mss' ++ rest), r).
Proof. exact c101_split. Qed.
Print Assumptions C101_split.
Example C101_split_ex :
  let lines ss := text_lines (on_stdout (@main no_unicode debug_env colourful (map lit ("ripcalc" :: "-s" :: "10.0.0.0/24" :: ss)%string))) in
  let ls := lines ["5"; "100"]%string in
  let ls' := lines ["100"; "5"]%string in
  firstn 7 ls = firstn 7 ls' /\ firstn 7 (skipn 7 ls) = firstn 7 (skipn 14 ls') /\ firstn 7 (skipn 14 ls) = firstn 7 (skipn 7 ls') /\
  skipn 21 ls = skipn 21 ls' /\ nth_error ls 7 = Some (lit "Subnet for 5 hosts:") /\ Nat.leb 23 (List.length ls) = true.
Proof. ex. Qed.

(** Listing addresses, argument by argument. *)
Theorem C101_enumerate : forall (U : Unicode) (R : Rust) (T : Terminal) (prog w : str) (ss : list str),
  In w enumerate_words -> ss <> [] -> Forall unicode (prog :: ss) ->
  let one s := main [prog; w; s] in
  on_stdout (main (prog :: w :: ss)) = flat_map (fun s => on_stdout (one s)) ss /\
  on_stderr (main (prog :: w :: ss)) = flat_map (fun s => on_stderr (one s)) ss /\
  forall ss', Permutation ss ss' -> ended (main (prog :: w :: ss)) = ended (main (prog :: w :: ss')).
Proof. exact c101_enumerate. Qed.
Print Assumptions C101_enumerate.
Example C101_enumerate_ex :
  let run ss := @main no_unicode debug_env plain (map lit ("ripcalc" :: "-e" :: ss)%string) in
  on_stdout (run ["10.0.0.2/31"; "x"; "::/127"]%string) = lines [lit "10.0.0.2"; lit "10.0.0.3"; lit "::"; lit "::1"] /\
  on_stdout (run ["::/127"; "10.0.0.2/31"; "x"]%string) = lines [lit "::"; lit "::1"; lit "10.0.0.2"; lit "10.0.0.3"] /\
  ended (run ["10.0.0.2/31"; "x"; "::/127"]%string) = Ret 1%Z.
Proof. ex. Qed.

(** Describing networks, argument by argument; whether all goes well does not depend on
    the order. *)
Theorem C101_show : forall (U : Unicode) (R : Rust) (T : Terminal) (prog : str) (ss : list str),
  ss <> [] -> Forall (fun s => unicode s /\ ~ In s command_words) ss -> unicode prog ->
  (ended (main (prog :: ss)) = Ret 0%Z ->
     on_stdout (main (prog :: ss)) = parted newline (map (fun s => on_stdout (main [prog; s])) ss)) /\
  (ended (main (prog :: ss)) <> Ret 0%Z -> exists s, In s ss /\ main (prog :: ss) = main [prog; s]) /\
  forall ss', Permutation ss ss' -> ended (main (prog :: ss)) = ended (main (prog :: ss')).
Proof. exact c101_show. Qed.
Print Assumptions C101_show.
Example C101_show_ex :
  let run ss := @main no_unicode debug_env colourful (map lit ("ripcalc" :: ss)%string) in
  let a := on_stdout (run ["10.0.0.2/31"]%string) in
  let b := on_stdout (run ["10.0.0.2/8"]%string) in
  let c := on_stdout (run ["10.0.0.2/255.0.255.0"]%string) in
  on_stdout (run ["10.0.0.2/31"; "10.0.0.2/8"; "10.0.0.2/255.0.255.0"]%string) = a ++ newline ++ b ++ newline ++ c /\
  run ["10.0.0.2/31"; "y"; "10.0.0.2/8"; "x"]%string = run ["y"]%string /\ ended (run ["y"]%string) = Ret 1%Z.
Proof. ex. Qed.
