(** * P_Fate: what becomes of the program, without exception (C91) *)
From Verif Require Import RustBase Addr Net Parse Console Main Messages Process SpecMessages SpecFate Demo Pf_Fate.

(** ** C91: every run *)
(** Whatever a run does is its fate. *)
Theorem C91_sound : forall (R : Rust) (args : list str) (ms : list mark) (r : res Z),
  runs args ms r -> fate usize_bits overflow_checks args ms (as_seen r).
Proof. exact c91_sound. Qed.
Print Assumptions C91_sound.
Example C91_sound_ex :
  fate 64 true [lit "ripcalc"; lit "-d"; lit "0.0.0.0"; lit "255.255.255.255"] [] Crash /\
  fate 32 false [lit "ripcalc"; lit "-d"; lit "10.0.0.0"; lit "255.255.255.255"] [] Crash /\
  fate 32 false [lit "ripcalc"; lit "-d"; lit "10.0.0.0"] [Problem MsgUsage] (Status 1).
Proof.
  split; [|split].
  - apply (C91_sound debug_env _ _ Panic). intros T. vm_compute. reflexivity.
  - apply (C91_sound narrow_env _ _ Panic). intros T. vm_compute. reflexivity.
  - apply (C91_sound narrow_env _ _ (Ret 1%Z)). intros T. vm_compute. reflexivity.
Qed.

(** Its fate is what it does, but for the order of the answers to equal host counts. *)
Theorem C91_complete : forall (R : Rust) (args : list str) (ms : list mark) (f : ending),
  fate usize_bits overflow_checks args ms f ->
  exists ms' r, runs args ms' r /\ as_seen r = f /\ Permutation ms' ms /\ (settled args -> ms' = ms).
Proof. exact c91_complete. Qed.
Print Assumptions C91_complete.
Example C91_complete_ex :
  ~ fate 64 true [lit "ripcalc"; lit "-d"; lit "::"; lit "ffff:ffff:ffff:ffff:ffff:ffff:ffff:ffff"] [says (lit "::/0")] (Status 0) /\
  ~ exists ms, fate 64 true [lit "ripcalc"; lit "-s"; lit "255.255.255.0/24"; lit "5"] ms (Status 0).
Proof.
  split.
  - intros H. apply (C91_complete debug_env) in H. destruct H as (ms & r & D & E & _). specialize (D plain). vm_compute in D.
    injection D as _ <-. discriminate E.
  - intros (ms & H). apply (C91_complete debug_env) in H. destruct H as (ms' & r & D & E & _). specialize (D plain).
    apply (f_equal snd) in D. vm_compute in D. subst r. discriminate E.
Qed.

(** Everybody has a fate, and only one. *)
Theorem C91_total : forall (bits : N) (checked : bool) (args : list str), 16 <= bits ->
  exists ms f, fate bits checked args ms f.
Proof. exact c91_total. Qed.
Print Assumptions C91_total.
Example C91_total_ex : exists ms f, fate 64 false [lit "ripcalc"; lit "-d"; lit "0.0.0.0"; lit "255.255.255.255"] ms f /\ f = Forever.
Proof.
  exists [], Forever. split; [|reflexivity].
  apply (fate_everything V4 (lit "ripcalc") (lit "-d") (lit "0.0.0.0") (lit "255.255.255.255") (ip4 0 0 0 0) (ip4 255 255 255 255)); try reflexivity;
    [now left|apply (Pf_Netspec.c34_address V4); vm_compute; reflexivity..].
Qed.

Theorem C91_unique : forall (bits : N) (checked : bool) (args : list str) (ms ms' : list mark) (f f' : ending), 16 <= bits ->
  fate bits checked args ms f -> fate bits checked args ms' f' ->
  f = f' /\ Permutation ms ms' /\ (settled args -> ms = ms').
Proof. exact c91_unique. Qed.
Print Assumptions C91_unique.
Example C91_unique_ex :
  let args := [lit "ripcalc"; lit "-s"; lit "255.255.255.0/24"; lit "5"; lit "5"] in
  exists ms ms', fate 64 true args ms Crash /\ fate 64 true args ms' Crash /\ ms <> ms'.
Proof.
  set (marks := map (fun e => match e with EvStyled c s => Frag c s | EvOut s => Plain s | EvErr m => Problem m end)).
  intros args. exists (marks (fst (@do_main debug_env colourful args))), (marks (fst (@do_main reverse_env colourful args))).
  split; [|split].
  - apply (C91_sound debug_env _ _ Panic). intros [[]]; vm_compute; reflexivity.
  - apply (C91_sound reverse_env _ _ Panic). intros [[]]; vm_compute; reflexivity.
  - vm_compute. discriminate.
Qed.

(** Processes: the bytes they write, their own messages, how they end. *)
Theorem C91_process : forall (U : Unicode) (R : Rust) (T : Terminal) (args : list str), Forall unicode args ->
  exists ms ls, fate usize_bits overflow_checks args ms (as_seen (ended (main args))) /\
    told (faults ms) ls /\ on_stderr (main args) = lines ls /\
    if colors_enabled then seen (on_stdout (main args)) = Some (flat_map drawn ms, Normal)
    else on_stdout (main args) = flat_map ink ms.
Proof. exact c91_process. Qed.
Print Assumptions C91_process.
Example C91_process_ex :
  let p := @main no_unicode debug_env plain [lit "ripcalc"; lit "-s"; lit "255.255.255.255/32"; lit "5"] in
  exit_code (as_seen (ended p)) = Some 1%Z /\
  nth_error (rev (text_lines (on_stdout p))) 0 = Some (lit "Not enough addresses available for this split.").
Proof. ex. Qed.

(** What the shell gets to see. *)
Theorem C91_exit_code : forall (U : Unicode) (R : Rust) (T : Terminal) (args : list str),
  let code := exit_code (as_seen (ended (main args))) in
  (code = None <->
     Forall unicode args /\ overflow_checks = false /\
     exists F prog w s t (a b : addr F), args = [prog; w; s; t] /\ In w derange_words /\
       address_text F s a /\ address_text F t b /\ N.max (value a) (value b) = top F /\ N.min (value a) (value b) = 0) /\
  (code = Some 101%Z <-> ~ Forall unicode args \/ (derange_to_top args \/ split_to_top args) /\ code <> None) /\
  (code = Some 0%Z <-> Forall unicode args /\ exists ms, duty usize_bits args ms 0%Z) /\
  (code = Some 1%Z <-> Forall unicode args /\ exists ms, duty usize_bits args ms 1%Z) /\
  In code [None; Some 101%Z; Some 0%Z; Some 1%Z].
Proof. exact c91_exit_code. Qed.
Print Assumptions C91_exit_code.
Example C91_exit_code_ex :
  let code args := exit_code (as_seen (ended (@main no_unicode debug_env plain (lit "ripcalc" :: args)))) in
  code [lit "-d"; lit "1.2.3.4"; lit "255.255.255.255"] = Some 101%Z /\
  code [lit "-d"; lit "1.2.3.4"; lit "1.2.3.255"] = Some 0%Z /\
  code [lit "-d"; lit "1.2.3.4"; lit "1.2.3.256"] = Some 1%Z /\
  code [[ascii_of_N 255]] = Some 101%Z.
Proof. ex. Qed.
