(** * Properties of doing things in several steps: C84 *)
From Verif Require Import RustBase Addr Cidr BitManip Net Derange Minimize Resize Enumerate Split Spec Demo Pf_Steps.

(** ** C84: several steps instead of one *)
(** Resizing lists those networks with the new mask whose positions meet the
    positions of the given network. *)
Theorem C84_meets : forall (R : Rust) (F : family) (n : net F) (m : addr F) (l : list (net F)) (o : comparison) (e : net F),
  wf_net n -> valid m -> resize_network n m = Ret (l, o) ->
  (In e l <-> wf_net e /\ subnet_mask e = m /\ exists x,
     position m (base_addr e) <= x < position m (base_addr e) + 2 ^ host_bits m /\
     position (subnet_mask n) (base_addr n) <= x < position (subnet_mask n) (base_addr n) + 2 ^ host_bits (subnet_mask n)).
Proof. exact c84_meets. Qed.
Print Assumptions C84_meets.
Example C84_meets_ex :
  let n := @new_with_mask (addr V4) ipv4_ops (ip4 192 0 2 0) (ip4 255 0 255 255) in
  let m := ip4 255 255 255 0 in
  @resize_network debug_env (addr V4) ipv4_ops n m =
    Ret ([@new_with_mask (addr V4) ipv4_ops (ip4 192 2 0 0) m], Eq) /\
  position (F := V4) m (ip4 192 2 0 0) = position (F := V4) (subnet_mask n) (base_addr n).
Proof. ex. Qed.

(** Cutting into pieces, and these into smaller ones. *)
Theorem C84_resize_down : forall (R : Rust) (F : family) (n : net F) (m m' : addr F) (l : list (net F)) (ls : list (list (net F))) (o : comparison),
  wf_net n -> valid m -> valid m' -> host_bits m' <= host_bits m <= host_bits (subnet_mask n) ->
  resize_network n m = Ret (l, o) ->
  Forall2 (fun e le => exists o', resize_network e m' = Ret (le, o')) l ls ->
  exists o'', resize_network n m' = Ret (List.concat ls, o'').
Proof. exact c84_resize_down. Qed.
Print Assumptions C84_resize_down.
Example C84_resize_down_ex :
  let net d m := @new_with_mask (addr V4) ipv4_ops (ip4 192 0 8 d) m in
  let resize e m := l <- @resize_network debug_env (addr V4) ipv4_ops e m ;; Ret (fst l) in
  let m := ip4 255 255 252 254 in
  let m' := ip4 255 255 252 255 in
  let n := net 0 (ip4 255 255 252 252) in
  resize n m = Ret [net 0 m; net 2 m] /\
  resize (net 0 m) m' = Ret [net 0 m'; net 1 m'] /\ resize (net 2 m) m' = Ret [net 2 m'; net 3 m'] /\
  resize n m' = Ret [net 0 m'; net 1 m'; net 2 m'; net 3 m'].
Proof. ex. Qed.

(** Growing, and growing again. *)
Theorem C84_resize_up : forall (R : Rust) (F : family) (n n' : net F) (m m' : addr F) (l : list (net F)) (o o' : comparison),
  wf_net n -> valid m -> valid m' -> host_bits (subnet_mask n) <= host_bits m <= host_bits m' ->
  resize_network n m = Ret ([n'], o) -> resize_network n' m' = Ret (l, o') ->
  exists o'', resize_network n m' = Ret (l, o'').
Proof. exact c84_resize_up. Qed.
Print Assumptions C84_resize_up.
Example C84_resize_up_ex :
  let net c d m := @new_with_mask (addr V4) ipv4_ops (ip4 10 0 c d) m in
  let resize e m := l <- @resize_network debug_env (addr V4) ipv4_ops e m ;; Ret (fst l) in
  resize (net 7 9 (ip4 255 255 255 255)) (ip4 255 255 255 252) = Ret [net 7 8 (ip4 255 255 255 252)] /\
  resize (net 7 8 (ip4 255 255 255 252)) (ip4 255 255 252 0) = Ret [net 4 0 (ip4 255 255 252 0)] /\
  resize (net 7 9 (ip4 255 255 255 255)) (ip4 255 255 252 0) = Ret [net 4 0 (ip4 255 255 252 0)].
Proof. ex. Qed.

(** Growing too far and coming back, or cutting too fine and growing again, does
    not lead away from what is found directly. *)
Theorem C84_resize_detour : forall (R : Rust) (F : family) (n e e' : net F) (m m' : addr F) (l le l' : list (net F)) (o o' o'' : comparison),
  wf_net n -> valid m -> valid m' ->
  resize_network n m = Ret (l, o) -> resize_network n m' = Ret (l', o'') ->
  (host_bits (subnet_mask n) <= host_bits m' <= host_bits m -> In e l -> resize_network e m' = Ret (le, o') ->
   forall x, In x l' -> In x le) /\
  (host_bits m <= host_bits m' <= host_bits (subnet_mask n) ->
   (In e l -> resize_network e m' = Ret (le, o') -> forall x, In x le -> In x l') /\
   (In e' l' -> exists d, In d l /\ exists o1, resize_network d m' = Ret ([e'], o1))).
Proof. exact c84_resize_detour. Qed.
Print Assumptions C84_resize_detour.
Example C84_resize_detour_ex :
  let net d m := @new_with_mask (addr V4) ipv4_ops (ip4 10 0 0 d) (ip4 255 255 255 m) in
  let resize e m := l <- @resize_network debug_env (addr V4) ipv4_ops e (ip4 255 255 255 m) ;; Ret (fst l) in
  resize (net 9 255) 252 = Ret [net 8 252] /\ resize (net 8 252) 254 = Ret [net 8 254; net 10 254] /\
  resize (net 9 255) 254 = Ret [net 8 254].
Proof. ex. Qed.

(** A range in two parts. *)
Theorem C84_derange : forall (R : Rust) (F : family) (a b b' c : addr F) (l1 l2 l : list (net F)),
  valid a -> valid b -> valid b' -> valid c ->
  value a <= value b -> value b' = value b + 1 -> value b' <= value c ->
  range_to_subnets a b = Ret l1 -> range_to_subnets b' c = Ret l2 -> range_to_subnets a c = Ret l ->
  minimize_subnets (l1 ++ l2) = Ret l.
Proof. exact c84_derange. Qed.
Print Assumptions C84_derange.
Example C84_derange_ex :
  let range a b := @range_to_subnets debug_env (addr V4) ipv4_ops (ip4 10 0 0 a) (ip4 10 0 0 b) in
  (l1 <- range 3 10 ;; l2 <- range 11 16 ;; @minimize_subnets debug_env (addr V4) ipv4_ops (l1 ++ l2)) = range 3 16.
Proof. ex. Qed.

(** Listing part by part. *)
Theorem C84_enumerate : forall (R : Rust) (F : family) (n : net F) (p q : N) (m : addr F) (l : list (net F)) (o : comparison) (ls : list (list (addr F))),
  is_cidr n p -> valid m -> contiguous F (value m) q -> p <= q ->
  resize_network n m = Ret (l, o) -> Forall2 (fun e le => enumerate_net e = Ret le) l ls ->
  enumerate_net n = Ret (List.concat ls).
Proof. exact c84_enumerate. Qed.
Print Assumptions C84_enumerate.
Example C84_enumerate_ex :
  let net d m := @new_with_mask (addr V4) ipv4_ops (ip4 10 0 0 d) (ip4 255 255 255 m) in
  @resize_network debug_env (addr V4) ipv4_ops (net 252 252) (ip4 255 255 255 254) = Ret ([net 252 254; net 254 254], Gt) /\
  (l1 <- @enumerate_net debug_env (addr V4) ipv4_ops (net 252 254) ;;
   l2 <- @enumerate_net debug_env (addr V4) ipv4_ops (net 254 254) ;; Ret (l1 ++ l2)) =
  @enumerate_net debug_env (addr V4) ipv4_ops (net 252 252).
Proof. ex. Qed.

(** Where the network for a request is: behind those for more hosts, and behind
    some of those for equally many. *)
Theorem C84_split_where : forall (R : Rust) (F : family) (n : net F) (cs : list Z) (r : list (net F)),
  wf_net n -> split_subnet n cs = Ret (Some r) ->
  Forall2 (fun c m => exists k, (k < count_occ Z.eq_dec cs c)%nat /\
    value (base_addr m) = run_start n cs + total (filter (Z.ltb c) cs) + N.of_nat k * 2 ^ piece c) cs r.
Proof. exact c84_split_where. Qed.
Print Assumptions C84_split_where.
Example C84_split_where_ex :
  let cs := [2; 100; 0; 25]%Z in
  total (filter (Z.ltb 2) cs) = 160 /\
  match @split_subnet debug_env (addr V4) ipv4_ops (new_with_mask (ip4 10 0 0 0) (ip4 255 255 255 0)) cs with
  | Ret (Some (m :: _)) => base_addr m = ip4 10 0 0 160
  | _ => False
  end.
Proof. ex. Qed.

(** Splitting a part for its request again. *)
Theorem C84_split_again : forall (R : Rust) (F : family) (n : net F) (cs : list Z) (r : list (net F)),
  wf_net n -> split_subnet n cs = Ret (Some r) ->
  Forall2 (fun c m => split_subnet m [c] = Ret (Some [m])) cs r.
Proof. exact c84_split_again. Qed.
Print Assumptions C84_split_again.
Example C84_split_again_ex :
  let m := @new_with_mask (addr V4) ipv4_ops (ip4 10 0 0 160) (ip4 255 255 255 252) in
  @split_subnet debug_env (addr V4) ipv4_ops m [2%Z] = Ret (Some [m]).
Proof. ex. Qed.

(** The smaller requests can be served later, from the first unused address on. *)
Theorem C84_split_later : forall (R : Rust) (F : family) (n h : net F) (cs ds : list Z) (r : list (net F)),
  wf_net n -> cs <> [] -> NoDup cs -> NoDup ds -> (forall c d, In c cs -> In d ds -> d < c)%Z ->
  is_cidr h (width F) -> value (base_addr h) = run_start n cs + total cs ->
  (split_subnet n (cs ++ ds) = Ret (Some r) <->
   exists r1 r2, r = r1 ++ r2 /\ split_subnet n cs = Ret (Some r1) /\ split_subnet h ds = Ret (Some r2)).
Proof. exact c84_split_later. Qed.
Print Assumptions C84_split_later.
Example C84_split_later_ex :
  let n := @new_with_mask (addr V4) ipv4_ops (ip4 10 0 0 0) (ip4 255 255 255 0) in
  let h := @new_with_mask (addr V4) ipv4_ops (ip4 10 0 0 96) (ip4 255 255 255 255) in
  let split n cs := @split_subnet debug_env (addr V4) ipv4_ops n cs in
  match split n [25; 60]%Z, split h [2; 10]%Z with
  | Ret (Some r1), Ret (Some r2) => split n [25; 60; 2; 10]%Z = Ret (Some (r1 ++ r2))
  | _, _ => False
  end.
Proof. ex. Qed.
