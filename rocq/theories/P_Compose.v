(** * Properties relating the commands to each other: C64 - C66 *)
From Verif Require Import RustBase Addr Cidr BitManip Net Console Derange Minimize Resize Enumerate Split Main Spec SpecIO Demo Pf_Compose.

(** ** C64: minimize undoes what the other commands take apart *)
Theorem C64_derange : forall (R : Rust) (F : family) (a b : addr F) (l l' : list (net F)),
  valid a -> valid b -> range_to_subnets a b = Ret l -> (forall n, In n l <-> In n l') ->
  minimize_subnets l' = Ret l.
Proof. exact c64_derange. Qed.
Print Assumptions C64_derange.
Example C64_derange_ex :
  (l <- @range_to_subnets debug_env (addr V4) ipv4_ops (ip4 10 0 0 1) (ip4 10 0 1 6) ;;
   @minimize_subnets release_env (addr V4) ipv4_ops (rev l ++ l)) =
  @range_to_subnets debug_env (addr V4) ipv4_ops (ip4 10 0 0 1) (ip4 10 0 1 6).
Proof. ex. Qed.

(** The range from the first to the last address of a network is that network. *)
Theorem C64_derange_network : forall (R : Rust) (F : family) (n : net F) (p : N) (h : addr F),
  is_cidr n p -> last_addr_of_subnet n = Ret h -> value h <> 2 ^ width F - 1 ->
  range_to_subnets (base_addr n) h = Ret [n].
Proof. exact c64_derange_network. Qed.
Print Assumptions C64_derange_network.
Example C64_derange_network_ex :
  let n := @new_with_mask (addr V6) (@ipv6_ops debug_env) (ip6 1 2 3 4 5 6 7 0) (ip6 0xffff 0xffff 0xffff 0xffff 0xfffe 0 0 0) in
  @range_to_subnets debug_env (addr V6) (@ipv6_ops debug_env) (ip6 1 2 3 4 4 0 0 0) (ip6 1 2 3 4 5 0xffff 0xffff 0xffff) = Ret [n].
Proof. ex. Qed.

Theorem C64_resize : forall (R : Rust) (F : family) (n : net F) (p : N) (m : addr F) (q : N) (l : list (net F)) (o : comparison),
  is_cidr n p -> valid m -> contiguous F (value m) q -> p < q ->
  resize_network n m = Ret (l, o) -> minimize_subnets l = Ret [n].
Proof. exact c64_resize. Qed.
Print Assumptions C64_resize.
Example C64_resize_ex :
  let n := @new_with_mask (addr V4) ipv4_ops (ip4 10 0 0 0) (ip4 255 255 252 0) in
  (lo <- @resize_network debug_env (addr V4) ipv4_ops n (ip4 255 255 255 192) ;;
   @minimize_subnets debug_env (addr V4) ipv4_ops (fst lo)) = Ret [n].
Proof. ex. Qed.

Theorem C64_enumerate : forall (R : Rust) (F : family) (n : net F) (p : N) (l : list (addr F)) (hs : list (net F)),
  is_cidr n p -> enumerate_net n = Ret l ->
  Forall (fun h => is_cidr h (width F)) hs ->
  (forall a, In a l <-> exists h, In h hs /\ base_addr h = a) ->
  minimize_subnets hs = Ret [n].
Proof. exact c64_enumerate. Qed.
Print Assumptions C64_enumerate.
Example C64_enumerate_ex :
  let n := @new_with_mask (addr V4) ipv4_ops (ip4 10 0 0 32) (ip4 255 255 255 224) in
  (l <- @enumerate_net debug_env (addr V4) ipv4_ops n ;;
   @minimize_subnets debug_env (addr V4) ipv4_ops
     (map (fun a => @new_with_mask (addr V4) ipv4_ops a (ip4 255 255 255 255)) l)) = Ret [n].
Proof. ex. Qed.

(** The pieces of a split and the networks listed as unused make up the network. *)
Theorem C64_split : forall (R : Rust) (T : Terminal) (F : family) (n : net F) (p : N) (cs : list Z) (r : list (net F))
    (out : net F -> option (addr F) -> io unit),
  is_cidr n p -> cs <> [] -> prints out -> split_subnet n cs = Ret (Some r) ->
  total cs < 2 ^ (width F - p) -> value (base_addr n) + 2 ^ (width F - p) < 2 ^ width F ->
  exists us, output_split n cs out =
    (split_report out n cs r ++ [line (lit "Unused networks:")] ++ map (fun u => line (net_display u)) us, Ret 0%Z) /\
    minimize_subnets (r ++ us) = Ret [n] /\ minimize_subnets us = Ret us.
Proof. exact c64_split. Qed.
Print Assumptions C64_split.
Example C64_split_ex :
  let net k m := @new_with_mask (addr V4) ipv4_ops (ip4 10 0 0 k) (ip4 255 255 255 m) in
  @split_subnet debug_env (addr V4) ipv4_ops (net 0 0) [50%Z; 20%Z] = Ret (Some [net 0 192; net 64 224]) /\
  @minimize_subnets debug_env (addr V4) ipv4_ops [net 0 192; net 64 224; net 96 224; net 128 128] = Ret [net 0 0].
Proof. ex. Qed.

(** Minimizing parts first makes no difference. *)
Theorem C64_union : forall (R : Rust) (F : family) (l1 l2 r1 r2 : list (net F)),
  Forall (fun n => exists p, is_cidr n p) l1 -> Forall (fun n => exists p, is_cidr n p) l2 ->
  minimize_subnets l1 = Ret r1 -> minimize_subnets l2 = Ret r2 ->
  minimize_subnets (r1 ++ r2) = minimize_subnets (l1 ++ l2).
Proof. exact c64_union. Qed.
Print Assumptions C64_union.
Example C64_union_ex :
  let net k m := @new_with_mask (addr V4) ipv4_ops (ip4 10 0 0 k) (ip4 255 255 255 m) in
  @minimize_subnets debug_env (addr V4) ipv4_ops ([net 0 192; net 64 192] ++ [net 128 192; net 192 192]) = Ret [net 0 0] /\
  @minimize_subnets debug_env (addr V4) ipv4_ops ([net 0 128] ++ [net 128 128]) = Ret [net 0 0].
Proof. ex. Qed.

(** ** C65: tests agree with listings *)
Theorem C65_contains_enumerate : forall (R : Rust) (F : family) (n : net F) (l : list (addr F)) (a : addr F),
  wf_net n -> valid a -> enumerate_net n = Ret l -> (contains n a = true <-> In a l).
Proof. exact c65_contains_enumerate. Qed.
Print Assumptions C65_contains_enumerate.
Example C65_contains_enumerate_ex :
  let n := @new_with_mask (addr V4) ipv4_ops (ip4 10 0 0 4) (ip4 255 254 255 254) in
  @enumerate_net debug_env (addr V4) ipv4_ops n = Ret [ip4 10 0 0 4; ip4 10 0 0 5; ip4 10 1 0 4; ip4 10 1 0 5] /\
  @contains (addr V4) ipv4_ops n (ip4 10 1 0 5) = true /\ @contains (addr V4) ipv4_ops n (ip4 10 2 0 5) = false.
Proof. ex. Qed.

Theorem C65_contains_host : forall (R : Rust) (F : family) (n h : net F),
  wf_net n -> is_cidr h (width F) ->
  is_superset_of n h = contains n (base_addr h) /\
  (forall p, is_cidr n p -> intersects n h = Ret (contains n (base_addr h))).
Proof. exact c65_contains_host. Qed.
Print Assumptions C65_contains_host.
Example C65_contains_host_ex :
  let n := @new_with_mask (addr V4) ipv4_ops (ip4 10 0 0 4) (ip4 255 255 255 252) in
  let h k := @new_with_mask (addr V4) ipv4_ops (ip4 10 0 0 k) (ip4 255 255 255 255) in
  @intersects debug_env (addr V4) ipv4_ops n (h 6) = Ret true /\ @is_superset_of (addr V4) ipv4_ops n (h 6) = true /\
  @intersects debug_env (addr V4) ipv4_ops n (h 8) = Ret false /\ @is_superset_of (addr V4) ipv4_ops n (h 8) = false.
Proof. ex. Qed.

Theorem C65_enumerate_count : forall (R : Rust) (F : family) (n : net F) (l : list (addr F)),
  wf_net n -> enumerate_net n = Ret l -> N.of_nat (List.length l) = address_count n.
Proof. exact c65_enumerate_count. Qed.
Print Assumptions C65_enumerate_count.
Example C65_enumerate_count_ex :
  let n := @new_with_mask (addr V4) ipv4_ops (ip4 10 0 0 4) (ip4 255 252 255 254) in
  @address_count (addr V4) ipv4_ops n = 8 /\
  (l <- @enumerate_net debug_env (addr V4) ipv4_ops n ;; Ret (List.length l)) = Ret 8%nat.
Proof. ex. Qed.

Theorem C65_superset_count : forall (R : Rust) (F : family) (n n' : net F),
  wf_net n -> wf_net n' -> is_superset_of n n' = true ->
  exists k, address_count n = 2 ^ k * address_count n' /\ (k = 0 -> n = n').
Proof. exact c65_superset_count. Qed.
Print Assumptions C65_superset_count.
Example C65_superset_count_ex :
  let n := @new_with_mask (addr V4) ipv4_ops (ip4 10 0 0 0) (ip4 255 0 255 0) in
  let n' := @new_with_mask (addr V4) ipv4_ops (ip4 10 3 0 4) (ip4 255 127 255 254) in
  @is_superset_of (addr V4) ipv4_ops n n' = true /\ @address_count (addr V4) ipv4_ops n = 2 ^ 14 * @address_count (addr V4) ipv4_ops n'.
Proof. ex. Qed.

(** ** C66: resizing and back *)
Theorem C66_there_and_back : forall (R : Rust) (F : family) (n e : net F) (m : addr F) (l : list (net F)),
  wf_net n -> valid m -> resize_network n m = Ret (l, Gt) -> In e l ->
  resize_network e (subnet_mask n) = Ret ([n], Lt).
Proof. exact c66_there_and_back. Qed.
Print Assumptions C66_there_and_back.
Example C66_there_and_back_ex :
  let n := @new_with_mask (addr V4) ipv4_ops (ip4 10 0 7 0) (ip4 255 0 255 0) in
  (lo <- @resize_network debug_env (addr V4) ipv4_ops n (ip4 255 255 255 3) ;;
   match nth_error (fst lo) 700 with
   | Some e => @resize_network debug_env (addr V4) ipv4_ops e (subnet_mask n)
   | None => Panic
   end) = Ret ([n], Lt).
Proof. ex. Qed.

(** ... and the other way round: a network is among those its supernet is cut into. *)
Theorem C66_back_and_there : forall (R : Rust) (F : family) (n n' : net F) (m : addr F) (l : list (net F)),
  wf_net n -> valid m -> resize_network n m = Ret ([n'], Lt) ->
  resize_network n' (subnet_mask n) = Ret (l, Gt) -> In n l.
Proof. exact c66_back_and_there. Qed.
Print Assumptions C66_back_and_there.
Example C66_back_and_there_ex :
  let n := @new_with_mask (addr V4) ipv4_ops (ip4 10 3 9 2) (ip4 255 255 255 3) in
  (lo <- @resize_network debug_env (addr V4) ipv4_ops n (ip4 255 0 255 0) ;;
   match fst lo with
   | n' :: _ => lo' <- @resize_network debug_env (addr V4) ipv4_ops n' (subnet_mask n) ;; Ret (nth_error (fst lo') 38)
   | [] => Panic
   end) = Ret (Some n).
Proof. ex. Qed.

(** Resizing the network of all addresses lists every network with a mask once. *)
Theorem C66_all_networks : forall (R : Rust) (F : family) (n : net F) (m : addr F),
  is_cidr n 0 -> valid m -> value m <> 0 ->
  exists l, resize_network n m = Ret (l, Gt) /\ NoDup l /\
    forall e, In e l <-> wf_net e /\ subnet_mask e = m.
Proof. exact c66_all_networks. Qed.
Print Assumptions C66_all_networks.
Example C66_all_networks_ex :
  let net a m := @new_with_mask (addr V4) ipv4_ops a m in
  @resize_network debug_env (addr V4) ipv4_ops (net (ip4 0 0 0 0) (ip4 0 0 0 0)) (ip4 128 0 0 1) =
    Ret ([net (ip4 0 0 0 0) (ip4 128 0 0 1); net (ip4 0 0 0 1) (ip4 128 0 0 1);
          net (ip4 128 0 0 0) (ip4 128 0 0 1); net (ip4 128 0 0 1) (ip4 128 0 0 1)], Gt).
Proof. ex. Qed.
