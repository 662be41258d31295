(** * P_Whole: the program does what is asked of it (C88) *)
From Verif Require Import RustBase Addr Net Parse Derange Resize Split Console ShowNet Main Messages Process SpecMessages SpecWhole Demo Pf_Whole.

(** ** C88: the program and its specification *)
(** Texts. *)
Theorem C88_spelled : forall (R : Rust) (F : family) (a : addr F) (t : str),
  valid a -> (display a = t <-> spelled a t).
Proof. exact c88_spelled. Qed.
Print Assumptions C88_spelled.
Example C88_spelled_ex :
  spelled (ip4 10 0 200 7) (lit "10.0.200.7") /\ ~ spelled (ip4 10 0 200 7) (lit "10.0.200.07") /\
  spelled (ip6 0x2001 0xdb8 0 0 1 0 0 1) (lit "2001:db8::1:0:0:1") /\
  ~ spelled (ip6 0x2001 0xdb8 0 0 1 0 0 1) (lit "2001:db8:0:0:1::1").
Proof.
  repeat split; try (apply (C88_spelled debug_env); ex);
    (intros H; apply (C88_spelled debug_env) in H; [vm_compute in H; discriminate|ex]).
Qed.

Theorem C88_net_spelled : forall (R : Rust) (F : family) (n : net F) (t : str),
  wf_net n -> (net_display n = t <-> net_spelled n t).
Proof. exact c88_net_spelled. Qed.
Print Assumptions C88_net_spelled.
Example C88_net_spelled_ex :
  let n := @new_with_mask (addr V4) ipv4_ops (ip4 10 1 2 3) (ip4 255 255 0 0) in
  let n' := @new_with_mask (addr V4) ipv4_ops (ip4 10 1 2 3) (ip4 255 0 255 0) in
  net_spelled n (lit "10.1.0.0/16") /\ net_spelled n' (lit "10.0.2.0/255.0.255.0").
Proof. split; (apply (C88_net_spelled debug_env); [now apply Pf_Split.wf_new|ex]). Qed.

(** Descriptions. *)
Theorem C88_depicted : forall (R : Rust) (F : family) (n : net F) (a : option (addr F)) (ms : list mark),
  wf_net n -> (forall x, a = Some x -> valid x) ->
  ((forall T : Terminal, show_of F n a = (map (paint colors_enabled) ms, Ret tt)) <-> depicted n a ms).
Proof. exact c88_depicted. Qed.
Print Assumptions C88_depicted.
Example C88_depicted_ex :
  depicted (@new_with_mask (addr V4) ipv4_ops (ip4 10 0 0 1) (ip4 255 255 255 255)) None
    ([Frag White (lit "Network:   "); Frag Blue (lit "10.0.0.1/32          ")] ++
     column (F := V4) 1 (ip4 10 0 0 1) (fun j => if Nat.eqb j 0 then Magenta else Green) ++
     [break; Frag White (lit "no hosts"); break; Frag White (lit "no broadcast"); break; Frag White (lit "no hosts/net")]).
Proof. apply (C88_depicted debug_env); [now apply Pf_Split.wf_new|discriminate|]. intros [[]]; vm_compute; reflexivity. Qed.

(** Ranges, resizing, splitting. *)
Theorem C88_ranged : forall (R : Rust) (F : family) (a b : addr F) (r : list (net F)),
  valid a -> valid b -> N.max (value a) (value b) <> top F ->
  (range_to_subnets a b = Ret r <-> ranged F (N.min (value a) (value b)) (N.max (value a) (value b)) r).
Proof. exact c88_ranged. Qed.
Print Assumptions C88_ranged.
Example C88_ranged_ex :
  ranged V4 (value (ip4 10 0 0 1)) (value (ip4 10 0 0 4))
    [@new_with_mask (addr V4) ipv4_ops (ip4 10 0 0 1) (ip4 255 255 255 255);
     @new_with_mask (addr V4) ipv4_ops (ip4 10 0 0 2) (ip4 255 255 255 254);
     @new_with_mask (addr V4) ipv4_ops (ip4 10 0 0 4) (ip4 255 255 255 255)].
Proof. apply (C88_ranged debug_env V4 (ip4 10 0 0 1) (ip4 10 0 0 4)); ex. Qed.

Theorem C88_resized : forall (R : Rust) (F : family) (n : net F) (m : addr F) (r : list (net F)) (o : comparison),
  wf_net n -> valid m -> (resize_network n m = Ret (r, o) <-> resized n m r o).
Proof. exact c88_resized. Qed.
Print Assumptions C88_resized.
Example C88_resized_ex :
  let n := @new_with_mask (addr V4) ipv4_ops (ip4 192 0 2 0) (ip4 255 255 255 0) in
  resized n (ip4 255 0 255 0) [@new_with_mask (addr V4) ipv4_ops (ip4 192 0 0 0) (ip4 255 0 255 0)] Lt /\
  resized n (ip4 255 255 255 128)
    [@new_with_mask (addr V4) ipv4_ops (ip4 192 0 2 0) (ip4 255 255 255 128);
     @new_with_mask (addr V4) ipv4_ops (ip4 192 0 2 128) (ip4 255 255 255 128)] Gt.
Proof. split; (apply (C88_resized debug_env); [now apply Pf_Split.wf_new|ex..]). Qed.

Theorem C88_placed : forall (R : Rust) (F : family) (n : net F) (cs : list Z) (r : list (net F)),
  wf_net n -> run_start n cs + total cs <= top F ->
  (split_subnet n cs = Ret (Some r) -> placed n cs r) /\
  (placed n cs r -> exists r', split_subnet n cs = Ret (Some r') /\
     Permutation (combine cs r) (combine cs r') /\ (NoDup cs -> r = r')).
Proof. exact c88_placed. Qed.
Print Assumptions C88_placed.
Example C88_placed_ex :
  let n := @new_with_mask (addr V4) ipv4_ops (ip4 192 0 2 0) (ip4 255 255 255 0) in
  placed n [5; 50]%Z
    [@new_with_mask (addr V4) ipv4_ops (ip4 192 0 2 64) (ip4 255 255 255 248);
     @new_with_mask (addr V4) ipv4_ops (ip4 192 0 2 0) (ip4 255 255 255 192)].
Proof. apply (C88_placed debug_env); [now apply Pf_Split.wf_new|discriminate|]. ex. Qed.

(** Runs. Whatever the program does is what it is to do. *)
Theorem C88_sound : forall (R : Rust) (args : list str) (ms : list mark) (z : Z),
  does args ms z -> duty usize_bits args ms z.
Proof. exact c88_sound. Qed.
Print Assumptions C88_sound.
Example C88_sound_ex :
  duty 64 [lit "ripcalc"; lit "-m"; lit "10.0.0.0/25"; lit "10.0.0.128/25"; lit "10.0.0.7/31"] [says (lit "10.0.0.0/24")] 0 /\
  duty 64 [lit "ripcalc"; lit "-d"; lit "10.0.0.1"; lit "10.0.0.256"]
    [Problem (MsgSecondAddr (ChunkOutOfRange 3 256 0 255))] 1.
Proof. split; apply (C88_sound debug_env); intros T; vm_compute; reflexivity. Qed.

(** What it is to do it does, but for the order of the answers to equal host counts. *)
Theorem C88_complete : forall (R : Rust) (args : list str) (ms : list mark) (z : Z),
  duty usize_bits args ms z -> exists ms', does args ms' z /\ Permutation ms' ms.
Proof. exact c88_complete. Qed.
Print Assumptions C88_complete.
Example C88_complete_ex : forall ms z,
  duty 64 [lit "ripcalc"; lit "--enumerate"; lit "10.0.0.0/30"; lit "x"] ms z ->
  z = 1%Z /\ Permutation ms
    [says (lit "10.0.0.0"); says (lit "10.0.0.1"); says (lit "10.0.0.2"); says (lit "10.0.0.3");
     Problem (MsgNetwork (lit "x") (Unrecognized (lit "x")))].
Proof.
  intros ms z H. destruct (C88_complete debug_env _ ms z H) as (ms' & D & P). rewrite <- P.
  match goal with |- _ /\ Permutation _ ?l =>
    assert (E : @does debug_env [lit "ripcalc"; lit "--enumerate"; lit "10.0.0.0/30"; lit "x"] l 1) by (intros T; vm_compute; reflexivity)
  end.
  destruct (Pf_Runs.does_once debug_env _ _ _ _ _ D E) as [-> ->]. split; reflexivity.
Qed.

Theorem C88_exact : forall (R : Rust) (args : list str) (ms : list mark) (z : Z),
  settled args -> (does args ms z <-> duty usize_bits args ms z).
Proof. exact c88_exact. Qed.
Print Assumptions C88_exact.
Example C88_exact_ex :
  ~ duty 64 [lit "ripcalc"; lit "-m"; lit "10.0.0.0/25"; lit "10.0.0.128/25"] [says (lit "10.0.0.0/25"); says (lit "10.0.0.128/25")] 0 /\
  ~ duty 64 [lit "ripcalc"; lit "-m"; lit "10.0.0.0/25"; lit "::/8"] [Problem MsgMixing] 0.
Proof.
  split; (intros H; apply (C88_exact debug_env) in H;
    [specialize (H plain); vm_compute in H; discriminate
    |intros prog w s ss cs [= <- <- _ _] [W|[W|[]]]; discriminate]).
Qed.

(** The specification leaves nothing out but ranges up to the last address, and
    does not contradict itself. *)
Theorem C88_total : forall (bits : N) (args : list str), 16 <= bits ->
  ((exists ms z, duty bits args ms z) <-> ~ derange_to_top args /\ ~ split_to_top args).
Proof. exact c88_total. Qed.
Print Assumptions C88_total.
Example C88_total_ex :
  (exists ms z, duty 64 [lit "ripcalc"; lit "10.0.0.0/8"; lit "::1/64"] ms z) /\
  ~ exists ms z, duty 64 [lit "ripcalc"; lit "-d"; lit "1.2.3.4"; lit "255.255.255.255"] ms z.
Proof.
  split.
  - apply C88_total; [discriminate|]. split.
    + intros (F & prog & w & s & t & a & b & [= <- <- <- <-] & _).
    + intros (F & prog & w & s & ss & a & n & cs & h & [= <- <- <- <-] & W & _). repeat destruct W as [W|W]; discriminate || contradiction.
  - intros H. apply C88_total in H; [|discriminate]. apply (proj1 H).
    exists V4, (lit "ripcalc"), (lit "-d"), (lit "1.2.3.4"), (lit "255.255.255.255"), (ip4 1 2 3 4), (ip4 255 255 255 255).
    split; [reflexivity|]. split; [now left|]. split; [|split; [|reflexivity]]; apply (Pf_Netspec.c34_address V4); vm_compute; reflexivity.
Qed.

Theorem C88_unique : forall (bits : N) (args : list str) (ms ms' : list mark) (z z' : Z), 16 <= bits ->
  duty bits args ms z -> duty bits args ms' z' -> z = z' /\ Permutation ms ms' /\ (settled args -> ms = ms').
Proof. exact c88_unique. Qed.
Print Assumptions C88_unique.
Example C88_unique_ex :
  let args := [lit "ripcalc"; lit "-s"; lit "10.0.0.0/24"; lit "5"; lit "5"] in
  exists ms ms', duty 64 args ms 0 /\ duty 64 args ms' 0 /\ ms <> ms'.
Proof.
  set (marks := map (fun e => match e with EvStyled c s => Frag c s | EvOut s => Plain s | EvErr m => Problem m end)).
  intros args. exists (marks (fst (@do_main debug_env colourful args))), (marks (fst (@do_main reverse_env colourful args))).
  split; [|split].
  - apply (C88_sound debug_env). intros [[]]; vm_compute; reflexivity.
  - apply (C88_sound reverse_env). intros [[]]; vm_compute; reflexivity.
  - vm_compute. discriminate.
Qed.

(** Processes: standard output, standard error and exit status, byte by byte. *)
Theorem C88_process : forall (U : Unicode) (R : Rust) (T : Terminal) (args : list str),
  Forall unicode args -> ~ derange_to_top args -> ~ split_to_top args ->
  exists ms z ls, duty usize_bits args ms z /\ told (faults ms) ls /\
    on_stderr (main args) = lines ls /\ ended (main args) = Ret z /\
    if colors_enabled then seen (on_stdout (main args)) = Some (flat_map drawn ms, Normal)
    else on_stdout (main args) = flat_map ink ms.
Proof. exact c88_process. Qed.
Print Assumptions C88_process.
Example C88_process_ex :
  on_stdout (@main no_unicode debug_env plain [lit "ripcalc"; lit "-d"; lit "10.0.0.1"; lit "10.0.0.4"]) =
    flat_map ink [says (lit "10.0.0.1/32"); says (lit "10.0.0.2/31"); says (lit "10.0.0.4/32")] /\
  on_stderr (@main no_unicode debug_env plain [lit "ripcalc"; lit "-d"; lit "10.0.0.1"; lit "::4"]) =
    lines [lit "both addresses must be the same version"].
Proof. ex. Qed.
