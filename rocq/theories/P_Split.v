(** * Properties of split (split_subnet, output_split): C46 - C51 *)
From Verif Require Import RustBase Addr Cidr BitManip Net Split Console Main Spec SpecIO Demo Pf_Split.

(** ** C46: one network per request *)
Theorem C46_returns : forall (R : Rust) (F : family) (n : net F) (cs : list Z),
  wf_net n -> exists o, split_subnet n cs = Ret o.
Proof. exact c46_returns. Qed.
Print Assumptions C46_returns.
Example C46_returns_ex :
  @split_subnet debug_env (addr V4) ipv4_ops (new_with_mask (ip4 10 0 0 0) (ip4 255 255 255 0)) [5000000000%Z] = Ret None.
Proof. ex. Qed.

Theorem C46_one_per_request : forall (R : Rust) (F : family) (n : net F) (cs : list Z) (r : list (net F)),
  wf_net n -> split_subnet n cs = Ret (Some r) ->
  Forall2 (fun c m => piece c < width F /\ is_cidr m (width F - piece c)) cs r.
Proof. exact c46_one_per_request. Qed.
Print Assumptions C46_one_per_request.
Example C46_one_per_request_ex :
  @split_subnet debug_env (addr V4) ipv4_ops (new_with_mask (ip4 10 0 0 0) (ip4 255 255 255 0)) [2%Z; 100%Z; 0%Z] =
  Ret (Some [ {| base_addr := ip4 10 0 0 128; subnet_mask := ip4 255 255 255 252; cidr_prefix := Some 30 |};
              {| base_addr := ip4 10 0 0 0; subnet_mask := ip4 255 255 255 128; cidr_prefix := Some 25 |};
              {| base_addr := ip4 10 0 0 132; subnet_mask := ip4 255 255 255 254; cidr_prefix := Some 31 |} ]).
Proof. ex. Qed.

(** Sort tie-breaks and hash orders only decide which of several requests for
    equally many hosts gets which of the equally large networks. *)
Theorem C46_environment : forall (R R' : Rust) (F : family) (n : net F) (cs : list Z),
  wf_net n ->
  match @split_subnet R (addr F) (@addr_ops R F) n cs, @split_subnet R' (addr F) (@addr_ops R' F) n cs with
  | Ret (Some r), Ret (Some r') =>
      Permutation (combine cs r) (combine cs r') /\ (NoDup cs -> r = r')
  | Ret None, Ret None => True
  | _, _ => False
  end.
Proof. exact c46_environment. Qed.
Print Assumptions C46_environment.
Example C46_environment_ex :
  match @split_subnet debug_env (addr V4) ipv4_ops (new_with_mask (ip4 10 0 0 0) (ip4 255 255 255 0)) [2%Z; 2%Z],
        @split_subnet reverse_env (addr V4) ipv4_ops (new_with_mask (ip4 10 0 0 0) (ip4 255 255 255 0)) [2%Z; 2%Z] with
  | Ret (Some r), Ret (Some r') => r = rev r' /\ map (fun m => addr_value (base_addr m)) r = [addr_value (ip4 10 0 0 0); addr_value (ip4 10 0 0 4)]
  | _, _ => False
  end.
Proof. ex. Qed.

(** ** C47: large enough and smallest possible *)
Theorem C47_piece : forall (c : Z) (j : N),
  piece c <= j <-> (c <= 2 ^ Z.of_N j - 2)%Z.
Proof. exact c47_piece. Qed.
Print Assumptions C47_piece.
Example C47_piece_ex : piece 254 = 8 /\ piece 255 = 9 /\ piece 0 = 1 /\ piece (-1) = 0.
Proof. ex. Qed.

Theorem C47_smallest : forall (R : Rust) (F : family) (n : net F) (cs : list Z) (r : list (net F)),
  wf_net n -> split_subnet n cs = Ret (Some r) ->
  Forall2 (fun c m => exists k, count m k /\ (c <= Z.of_N k - 2)%Z /\
             forall (m' : net F) (p' k' : N), is_cidr m' p' -> count m' k' -> (c <= Z.of_N k' - 2)%Z -> k <= k') cs r.
Proof. exact c47_smallest. Qed.
Print Assumptions C47_smallest.
Example C47_smallest_ex :
  match @split_subnet debug_env (addr V4) ipv4_ops (new_with_mask (ip4 10 0 0 0) (ip4 255 255 0 0)) [254%Z; 255%Z] with
  | Ret (Some [a; b]) => cidr_prefix a = Some 24 /\ cidr_prefix b = Some 23
  | _ => False
  end.
Proof. ex. Qed.

(** ** C48: disjoint and gapless *)
Theorem C48_disjoint_run : forall (R : Rust) (F : family) (n : net F) (cs : list Z) (r : list (net F)),
  wf_net n -> split_subnet n cs = Ret (Some r) ->
  disjoint_nets r /\
  forall a : addr F, valid a ->
    ((exists m, In m r /\ member m a) <-> run_start n cs <= value a < run_start n cs + total cs).
Proof. exact c48_disjoint_run. Qed.
Print Assumptions C48_disjoint_run.
Example C48_disjoint_run_ex :
  let n := @new_with_mask (addr V4) ipv4_ops (ip4 10 0 0 0) (ip4 255 255 255 0) in
  run_start n [2%Z; 100%Z; 0%Z] = value (ip4 10 0 0 0) /\ total [2%Z; 100%Z; 0%Z] = 134.
Proof. ex. Qed.

(** More hosts come first. *)
Theorem C48_larger_first : forall (R : Rust) (F : family) (n : net F) (cs : list Z) (r : list (net F)) (i j : nat)
    (c c' : Z) (m m' : net F),
  wf_net n -> split_subnet n cs = Ret (Some r) ->
  nth_error cs i = Some c -> nth_error r i = Some m ->
  nth_error cs j = Some c' -> nth_error r j = Some m' ->
  (c' < c)%Z -> value (base_addr m) < value (base_addr m').
Proof. exact c48_larger_first. Qed.
Print Assumptions C48_larger_first.
Example C48_larger_first_ex :
  match @split_subnet reverse_env (addr V4) ipv4_ops (new_with_mask (ip4 10 0 0 0) (ip4 255 255 255 0)) [5%Z; 6%Z] with
  | Ret (Some [a; b]) => base_addr a = ip4 10 0 0 8 /\ base_addr b = ip4 10 0 0 0
  | _ => False
  end.
Proof. ex. Qed.

Theorem C48_starts_at_base : forall (F : family) (n : net F) (p : N) (cs : list Z),
  is_cidr n p -> (largest cs <= width F - p -> run_start n cs = value (base_addr n)) /\
  (run_start n cs <= value (base_addr n) /\ (cs <> [] -> value (base_addr n) < run_start n cs + total cs)).
Proof. exact c48_starts_at_base. Qed.
Print Assumptions C48_starts_at_base.
Example C48_starts_at_base_ex :
  let n := @new_with_mask (addr V4) ipv4_ops (ip4 10 0 0 128) (ip4 255 255 255 128) in
  run_start n [126%Z] = value (ip4 10 0 0 128) /\ run_start n [127%Z] = value (ip4 10 0 0 0).
Proof. ex. Qed.

(** ** C49: inside the network exactly when there is room *)
Theorem C49_inside_iff : forall (R : Rust) (F : family) (n : net F) (p : N) (cs : list Z) (r : list (net F)),
  is_cidr n p -> split_subnet n cs = Ret (Some r) ->
  (Forall (includes n) r <-> total cs <= 2 ^ (width F - p)).
Proof. exact c49_inside_iff. Qed.
Print Assumptions C49_inside_iff.
Example C49_inside_iff_ex :
  let n := @new_with_mask (addr V4) ipv4_ops (ip4 10 0 0 0) (ip4 255 255 255 0) in
  total [100%Z; 50%Z; 20%Z; 20%Z] = 256 /\
  match @split_subnet debug_env (addr V4) ipv4_ops n [100%Z; 50%Z; 20%Z; 20%Z] with
  | Ret (Some r) => forallb (is_superset_of n) r = true
  | _ => False
  end.
Proof. ex. Qed.

(** The size of the network is not consulted. *)
Theorem C49_always_inside_refuted : exists (n : net V4) (cs : list Z) (r : list (net V4)) (m : net V4) (a : addr V4),
  is_cidr n 24 /\ @split_subnet debug_env (addr V4) ipv4_ops n cs = Ret (Some r) /\
  In m r /\ valid a /\ member m a /\ ~ member n a.
Proof. exact c49_always_inside_refuted. Qed.
Print Assumptions C49_always_inside_refuted.
Example C49_always_inside_refuted_ex :
  match @split_subnet debug_env (addr V4) ipv4_ops (new_with_mask (ip4 10 0 1 0) (ip4 255 255 255 0)) [254%Z; 500%Z] with
  | Ret (Some [a; b]) => base_addr a = ip4 10 0 2 0 /\ base_addr b = ip4 10 0 0 0 /\ cidr_prefix b = Some 23
  | _ => False
  end.
Proof. ex. Qed.

(** ** C50: success *)
Theorem C50_succeeds_iff : forall (R : Rust) (F : family) (n : net F) (cs : list Z),
  wf_net n ->
  ((exists r, split_subnet n cs = Ret (Some r)) <-> run_start n cs + total cs < 2 ^ width F).
Proof. exact c50_succeeds_iff. Qed.
Print Assumptions C50_succeeds_iff.
Example C50_succeeds_iff_ex :
  let n := @new_with_mask (addr V4) ipv4_ops (ip4 255 255 255 0) (ip4 255 255 255 0) in
  run_start n [126%Z; 62%Z] + total [126%Z; 62%Z] = 2 ^ 32 - 64 /\
  match @split_subnet debug_env (addr V4) ipv4_ops n [126%Z; 62%Z] with Ret (Some _) => True | _ => False end /\
  match @split_subnet debug_env (addr V4) ipv4_ops n [126%Z; 62%Z; 62%Z] with Ret None => True | _ => False end.
Proof. ex1; vm_compute; ex1; (reflexivity || exact I). Qed.

(** If there is any way to place CIDR networks for all requests disjointly in
    the network, the split succeeds, unless it would use up the network and the
    network ends at the top of the address space. *)
Theorem C50_finds_fit : forall (R : Rust) (F : family) (n : net F) (p : N) (cs : list Z) (l : list (net F)),
  is_cidr n p ->
  Forall2 (fun c m => exists q k, is_cidr m q /\ count m k /\ (c <= Z.of_N k - 2)%Z) cs l ->
  disjoint_nets l -> Forall (includes n) l ->
  (exists r, split_subnet n cs = Ret (Some r) /\ Forall (includes n) r) \/
  (split_subnet n cs = Ret None /\ value (base_addr n) + total cs = 2 ^ width F /\ total cs = 2 ^ (width F - p)).
Proof. exact c50_finds_fit. Qed.
Print Assumptions C50_finds_fit.
Example C50_finds_fit_ex :
  let n := @new_with_mask (addr V4) ipv4_ops (ip4 10 0 0 0) (ip4 255 255 255 0) in
  match @split_subnet debug_env (addr V4) ipv4_ops n [30%Z; 60%Z; 120%Z; 30%Z] with
  | Ret (Some r) => map (fun m => addr_value (base_addr m) mod 256) r = [192; 128; 0; 224]
  | _ => False
  end.
Proof. ex. Qed.

Theorem C50_top_refuted : exists (n : net V4) (cs : list Z) (l : list (net V4)),
  is_cidr n 24 /\
  Forall2 (fun c m => exists q k, is_cidr m q /\ count m k /\ (c <= Z.of_N k - 2)%Z) cs l /\
  disjoint_nets l /\ Forall (includes n) l /\
  @split_subnet debug_env (addr V4) ipv4_ops n cs = Ret None.
Proof. exact c50_top_refuted. Qed.
Print Assumptions C50_top_refuted.
Example C50_top_refuted_ex :
  @split_subnet debug_env (addr V4) ipv4_ops (new_with_mask (ip4 255 255 255 0) (ip4 255 255 255 0)) [254%Z] = Ret None.
Proof. ex. Qed.

(** ** C51: what is reported as unused *)
(** With at least one address left over, and the network not ending at the top
    of the address space: the unused networks and the allocated ones together
    partition the network, and no shorter list of CIDR networks covers the
    unused addresses. *)
Theorem C51_unused : forall (R : Rust) (T : Terminal) (F : family) (n : net F) (p : N) (cs : list Z) (r : list (net F))
    (out : net F -> option (addr F) -> io unit),
  is_cidr n p -> cs <> [] -> prints out -> split_subnet n cs = Ret (Some r) ->
  total cs < 2 ^ (width F - p) -> value (base_addr n) + 2 ^ (width F - p) < 2 ^ width F ->
  exists us, output_split n cs out =
    (split_report out n cs r ++ [line (lit "Unused networks:")] ++ map (fun u => line (net_display u)) us, Ret 0%Z) /\
    Forall (fun u => exists q, is_cidr u q) us /\
    disjoint_nets (r ++ us) /\
    (forall a : addr F, valid a -> (member n a <-> exists m, In m (r ++ us) /\ member m a)) /\
    forall l, Forall (fun u => exists q, is_cidr u q) l ->
      (forall a : addr F, valid a -> ((exists u, In u us /\ member u a) <-> exists u, In u l /\ member u a)) ->
      (List.length us <= List.length l)%nat.
Proof. exact c51_unused. Qed.
Print Assumptions C51_unused.
Example C51_unused_ex :
  let n := @new_with_mask (addr V4) ipv4_ops (ip4 10 0 0 0) (ip4 255 255 255 0) in
  output_split (H := debug_env) n [100%Z; 50%Z] (fun m _ => println (net_display m)) =
  (map (fun s => line (lit s))
     ["Subnet to split:"; "10.0.0.0/24"; "";
      "Subnet for 100 hosts:"; "10.0.0.0/25"; "";
      "Subnet for 50 hosts:"; "10.0.0.128/26"; "";
      "Unused networks:"; "10.0.0.192/26"]%string, Ret 0%Z).
Proof. ex. Qed.

(** The remaining cases. The last allocated address lies beyond the network:
    only a message, and the status is still 0. *)
Theorem C51_too_small : forall (R : Rust) (T : Terminal) (F : family) (n : net F) (p : N) (cs : list Z) (r : list (net F))
    (out : net F -> option (addr F) -> io unit),
  is_cidr n p -> cs <> [] -> prints out -> split_subnet n cs = Ret (Some r) ->
  value (base_addr n) + 2 ^ (width F - p) < run_start n cs + total cs ->
  output_split n cs out = (split_report out n cs r ++ [line (lit "Network is too small")], Ret 0%Z).
Proof. exact c51_too_small. Qed.
Print Assumptions C51_too_small.
Example C51_too_small_ex :
  let n := @new_with_mask (addr V4) ipv4_ops (ip4 10 0 0 0) (ip4 255 255 255 0) in
  output_split (H := debug_env) n [254%Z; 2%Z] (fun m _ => println (net_display m)) =
  (map (fun s => line (lit s))
     ["Subnet to split:"; "10.0.0.0/24"; "";
      "Subnet for 254 hosts:"; "10.0.0.0/24"; "";
      "Subnet for 2 hosts:"; "10.0.1.0/30"; "";
      "Network is too small"]%string, Ret 0%Z).
Proof. ex. Qed.

(** The allocation ends exactly where the network ends: networks covering the
    last address of the network and the first one behind it are reported as
    unused (a panic if that one is the top of the address space). *)
Theorem C51_used_up : forall (R : Rust) (T : Terminal) (F : family) (n : net F) (p : N) (cs : list Z) (r : list (net F))
    (out : net F -> option (addr F) -> io unit),
  is_cidr n p -> cs <> [] -> prints out -> split_subnet n cs = Ret (Some r) ->
  let e := value (base_addr n) + 2 ^ (width F - p) in
  e = run_start n cs + total cs ->
  (e + 1 < 2 ^ width F ->
   exists us, output_split n cs out =
     (split_report out n cs r ++ [line (lit "Unused networks:")] ++ map (fun u => line (net_display u)) us, Ret 0%Z) /\
     Forall (fun u => exists q, is_cidr u q) us /\
     forall a : addr F, valid a -> ((exists u, In u us /\ member u a) <-> value a = e - 1 \/ value a = e)) /\
  (e + 1 = 2 ^ width F ->
   output_split n cs out = (split_report out n cs r ++ [line (lit "Unused networks:")], Panic)).
Proof. exact c51_used_up. Qed.
Print Assumptions C51_used_up.
Example C51_used_up_ex :
  let n := @new_with_mask (addr V4) ipv4_ops (ip4 10 0 0 0) (ip4 255 255 255 0) in
  output_split (H := debug_env) n [254%Z] (fun m _ => println (net_display m)) =
  (map (fun s => line (lit s))
     ["Subnet to split:"; "10.0.0.0/24"; "";
      "Subnet for 254 hosts:"; "10.0.0.0/24"; "";
      "Unused networks:"; "10.0.0.255/32"; "10.0.1.0/32"]%string, Ret 0%Z).
Proof. ex. Qed.

(** The network ends at the top of the address space and something is left: a panic. *)
Theorem C51_top_panics : forall (R : Rust) (T : Terminal) (F : family) (n : net F) (p : N) (cs : list Z) (r : list (net F))
    (out : net F -> option (addr F) -> io unit),
  is_cidr n p -> cs <> [] -> prints out -> split_subnet n cs = Ret (Some r) ->
  value (base_addr n) + 2 ^ (width F - p) = 2 ^ width F ->
  output_split n cs out = (split_report out n cs r ++ [line (lit "Unused networks:")], Panic).
Proof. exact c51_top_panics. Qed.
Print Assumptions C51_top_panics.
Example C51_top_panics_ex :
  let n := @new_with_mask (addr V4) ipv4_ops (ip4 255 255 255 0) (ip4 255 255 255 0) in
  output_split (H := release_env) n [2%Z] (fun m _ => println (net_display m)) =
  (map (fun s => line (lit s))
     ["Subnet to split:"; "255.255.255.0/24"; "";
      "Subnet for 2 hosts:"; "255.255.255.0/30"; "";
      "Unused networks:"]%string, Panic).
Proof. ex. Qed.

(** No split: a message and status 1. *)
Theorem C51_no_split : forall (R : Rust) (T : Terminal) (F : family) (n : net F) (cs : list Z)
    (out : net F -> option (addr F) -> io unit),
  wf_net n -> prints out -> split_subnet n cs = Ret None ->
  output_split n cs out =
  ([line (lit "Subnet to split:")] ++ fst (out n None) ++ [line []] ++
   [line (lit "Not enough addresses available for this split.")], Ret 1%Z).
Proof. exact c51_no_split. Qed.
Print Assumptions C51_no_split.
Example C51_no_split_ex :
  let n := @new_with_mask (addr V4) ipv4_ops (ip4 255 255 255 0) (ip4 255 255 255 0) in
  output_split (H := debug_env) n [254%Z] (fun m _ => println (net_display m)) =
  (map (fun s => line (lit s))
     ["Subnet to split:"; "255.255.255.0/24"; ""; "Not enough addresses available for this split."]%string, Ret 1%Z).
Proof. ex. Qed.

(** A reported unused network can be in use and outside the network. *)
Theorem C51_partition_refuted : exists (n : net V4) (cs : list Z) (r : list (net V4)) (us : list (net V4)) (u u' m : net V4) (a : addr V4),
  is_cidr n 24 /\ @split_subnet debug_env (addr V4) ipv4_ops n cs = Ret (Some r) /\
  output_split (H := debug_env) n cs (fun m _ => println (@net_display (addr V4) ipv4_ops m)) =
    (split_report (fun m _ => println (@net_display (addr V4) ipv4_ops m)) n cs r ++
     [line (lit "Unused networks:")] ++ map (fun u => line (@net_display (addr V4) ipv4_ops u)) us, Ret 0%Z) /\
  In u us /\ In m r /\ valid a /\ member u a /\ member m a /\ In u' us /\ ~ includes n u'.
Proof. exact c51_partition_refuted. Qed.
Print Assumptions C51_partition_refuted.
Example C51_partition_refuted_ex :
  let n := @new_with_mask (addr V4) ipv4_ops (ip4 10 0 0 0) (ip4 255 255 255 0) in
  @contains (addr V4) ipv4_ops n (ip4 10 0 1 0) = false.
Proof. ex. Qed.
