(** * P_Panic: where the program panics (C99) *)
From Verif Require Import RustBase Addr Net Derange Console Main Messages Process SpecMessages Panics SpecPanic Demo Pf_Panic.

(** ** C99: the places of panics *)
(** Without the places, the model of Panics.v is that of Main.v and Process.v. *)
Theorem C99_same_run : forall (R : Rust) (T : Terminal) (args : list str),
  (fst (tried_do_main args), without_place (snd (tried_do_main args))) = do_main args.
Proof. exact c99_same_run. Qed.
Print Assumptions C99_same_run.
Example C99_same_run_ex :
  let args := [lit "ripcalc"; lit "-s"; lit "255.255.255.0/24"; lit "5"] in
  snd (@tried_do_main debug_env plain args) = Panicked AtNext /\ snd (@do_main debug_env plain args) = Panic.
Proof. ex. Qed.

Theorem C99_same_end : forall (U : Unicode) (R : Rust) (T : Terminal) (args : list str),
  without_place (tried_main args) = ended (main args).
Proof. exact c99_same_end. Qed.
Print Assumptions C99_same_end.
Example C99_same_end_ex :
  let args := [lit "ripcalc"; lit "-d"; lit "1.2.3.4"; lit "1.2.3.4"] in
  @tried_main debug_env plain args = Fine 0%Z /\ ended (@main no_unicode debug_env plain args) = Ret 0%Z.
Proof. ex. Qed.

(** Ranges: the unwrap, unless all addresses are asked for; then the subtraction, if it
    is checked. *)
Theorem C99_range : forall (R : Rust) (F : family) (a b : addr F), valid a -> valid b ->
  (N.max (value a) (value b) <> top F -> exists l, tried_range a b = Fine l /\ range_to_subnets a b = Ret l) /\
  (N.max (value a) (value b) = top F ->
     tried_range a b =
       if 0 <? N.min (value a) (value b) then Panicked AtNext
       else if overflow_checks then Panicked AtPrefix else Endless).
Proof. exact c99_range. Qed.
Print Assumptions C99_range.
Example C99_range_ex :
  @tried_range debug_env (addr V4) ipv4_ops (ip4 0 0 0 0) (ip4 255 255 255 255) = Panicked AtPrefix /\
  @tried_range debug_env (addr V4) ipv4_ops (ip4 0 0 0 1) (ip4 255 255 255 255) = Panicked AtNext /\
  @tried_range release_env (addr V4) ipv4_ops (ip4 255 255 255 255) (ip4 255 255 255 255) = Panicked AtNext.
Proof. ex. Qed.

(** Processes: three places, and when they panic there. *)
Theorem C99_where : forall (R : Rust) (T : Terminal) (args : list str),
  (tried_main args = Panicked InArgs <-> ~ Forall unicode args) /\
  (tried_main args = Panicked AtPrefix <-> Forall unicode args /\ overflow_checks = true /\ everything args) /\
  (tried_main args = Panicked AtNext <->
     Forall unicode args /\ (derange_to_top args /\ ~ everything args \/ split_to_top args)) /\
  tried_main args <> Panicked Elsewhere.
Proof. exact c99_where. Qed.
Print Assumptions C99_where.
Example C99_where_ex :
  let ends args := @tried_main debug_env plain (map lit ("ripcalc" :: args))%string in
  map ends [["-d"; "255.255.255.255"; "0.0.0.0"]; ["--derange"; "::"; "ffff:ffff:ffff:ffff:ffff:ffff:ffff:ffff"];
            ["-d"; "10.0.0.0"; "255.255.255.255"]; ["-s"; "255.255.255.0/24"; "5"]; ["-s"; "255.255.255.0/24"; "500"]]%string =
    [Panicked AtPrefix; Panicked AtPrefix; Panicked AtNext; Panicked AtNext; Fine 1%Z] /\
  @tried_main release_env plain [[ascii_of_N 255]] = Panicked InArgs.
Proof. ex. Qed.

(** At the unwrap the work has been done: the networks found before and the one just
    stored make up the range, and no fewer do. *)
Theorem C99_lost : forall (R : Rust) (F : family) (a b : addr F), valid a -> valid b ->
  N.max (value a) (value b) = top F -> 0 < N.min (value a) (value b) ->
  exists (last : addr F) start first (current : net F) (found : list (net F)),
    range_to_subnets a b = while (derange_step last) start /\
    reaches (derange_step last) start (first, current, found) /\
    derange_step last (first, current, found) = Panic /\
    makes_up (F := F) (found ++ [current]) (N.min (value a) (value b)) (top F) /\
    forall l : list (net F), makes_up l (N.min (value a) (value b)) (top F) -> (List.length (found ++ [current]) <= List.length l)%nat.
Proof. exact c99_lost. Qed.
Print Assumptions C99_lost.
Example C99_lost_ex :
  let n a p := {| base_addr := ip4 255 255 255 a; subnet_mask := ip4 255 255 255 (256 - 2 ^ (32 - p)); cidr_prefix := Some p |} in
  @derange_step debug_env (addr V4) ipv4_ops (ip4 255 255 255 255) (ip4 255 255 255 252, n 252 30, [n 251 32]) = Panic.
Proof. ex. Qed.
