(** * P_Cost: how many networks derange gives (C75), how long loops run (C76) *)
From Verif Require Import RustBase Addr Net Derange Minimize Split Resize Enumerate Spec SpecCost Demo Pf_Cost.

(** ** C75: the shape of what derange gives *)
(** The networks grow strictly, then shrink strictly. *)
Theorem C75_shape : forall (R : Rust) (F : family) (a b : addr F) (l : list (net F)),
  valid a -> valid b -> range_to_subnets a b = Ret l ->
  exists l1 l2, l = l1 ++ l2 /\
    StronglySorted (fun n n' => forall p p', is_cidr n p -> is_cidr n' p' -> p' < p) l1 /\
    StronglySorted (fun n n' => forall p p', is_cidr n p -> is_cidr n' p' -> p < p') l2.
Proof. exact c75_shape. Qed.
Print Assumptions C75_shape.
Example C75_shape_ex :
  (l <- @range_to_subnets debug_env (addr V4) ipv4_ops (ip4 10 0 0 3) (ip4 10 0 1 133) ;; Ret (map cidr_prefix l)) =
    Ret [Some 32; Some 30; Some 29; Some 28; Some 27; Some 26; Some 25; Some 25; Some 30; Some 31].
Proof. ex. Qed.

(** There are at most two for each prefix length from the shortest to the longest but one. *)
Theorem C75_count : forall (R : Rust) (F : family) (a b : addr F) (l : list (net F)),
  valid a -> valid b -> range_to_subnets a b = Ret l -> N.of_nat (List.length l) <= 2 * (width F - 1).
Proof. exact c75_count. Qed.
Print Assumptions C75_count.
Example C75_count_ex :
  (l <- @range_to_subnets debug_env (addr V4) ipv4_ops (ip4 0 0 0 1) (ip4 255 255 255 254) ;; Ret (List.length l)) = Ret 62%nat.
Proof. ex. Qed.

(** ** C76: running times *)
(** The number of steps is what it takes the model's loops to end. *)
Theorem C76_meaning : forall (S T : Type) (step : S -> res (S + T)) (s : S) (r : T),
  (while step s = Ret r <-> exists n, n <= 2 ^ 300 /\ takes step s n r) /\
  (forall n n' r', takes step s n r -> takes step s n' r' -> n = n' /\ r = r').
Proof. exact c76_meaning. Qed.
Print Assumptions C76_meaning.
Example C76_meaning_ex :
  let step := fun n : N => Ret (if n =? 3 then inr tt else inl (n + 1)) in
  while step 1 = Ret tt /\ takes step 1 3 tt.
Proof. exact c76_meaning_ex. Qed.

(** Derange: exactly the prefix lengths tried, at most about the square of the width. *)
Theorem C76_derange : forall (R : Rust) (F : family) (a b : addr F) (l : list (net F)),
  valid a -> valid b -> range_to_subnets a b = Ret l ->
  exists start n,
    range_to_subnets a b = while (derange_step (amax a b)) start /\
    takes (derange_step (amax a b)) start n l /\
    n = sum (map tries l) + 1 /\ n <= width F * (width F - 1) + 1.
Proof. exact c76_derange. Qed.
Print Assumptions C76_derange.
Example C76_derange_ex :
  (l <- @range_to_subnets debug_env (addr V4) ipv4_ops (ip4 0 0 0 1) (ip4 255 255 255 254) ;; Ret (sum (map (@tries V4) l) + 1)) = Ret (32 * 31 + 1).
Proof. ex. Qed.

(** Minimize: each round but the last removes a network. *)
Theorem C76_minimize : forall (R : Rust) (F : family) (l r : list (net F)),
  Forall wf_net l -> minimize_subnets l = Ret r ->
  exists start n f,
    minimize_subnets l = (f <- while merge_step start ;; Ret (sort_nets (hash_iter f))) /\
    takes merge_step start n f /\ n + N.of_nat (List.length r) <= N.of_nat (List.length l) + 1.
Proof. exact c76_minimize. Qed.
Print Assumptions C76_minimize.
Example C76_minimize_ex :
  let h k := @new_with_mask (addr V4) ipv4_ops (ip4 10 0 0 k) (ip4 255 255 255 255) in
  exists f, takes (@merge_step debug_env (addr V4) ipv4_ops) [h 4; h 5; h 6; h 7] 4 f /\ List.length f = 1%nat.
Proof. exact c76_minimize_ex. Qed.

(** Split: each host count is tried against the networks from a single address upwards. *)
Theorem C76_grow : forall (R : Rust) (F : family) (c : Z) (n n' : net F) (p p' : N),
  is_cidr n p -> while (grow_step c) n = Ret n' -> is_cidr n' p' ->
  p' <= p /\ takes (grow_step c) n (p - p' + 1) n'.
Proof. exact c76_grow. Qed.
Print Assumptions C76_grow.
Example C76_grow_ex :
  let net m := @new_with_mask (addr V4) ipv4_ops (ip4 10 0 0 0) m in
  @while _ _ (@grow_step debug_env (addr V4) ipv4_ops 5) (net (ip4 255 255 255 255)) = Ret (net (ip4 255 255 255 248)).
Proof. ex. Qed.

(** Resize to subnets and enumerate: a step for each network or address, and one more
    to notice the end unless the last network is the last of all. *)
Theorem C76_resize : forall (R : Rust) (F : family) (n : net F) (m : addr F) (l : list (net F)),
  wf_net n -> valid m -> resize_network n m = Ret (l, Gt) ->
  exists last start k,
    resize_network n m = (l <- while (resize_step m last) start ;; Ret (l, Gt)) /\
    takes (resize_step m last) start k l /\ N.of_nat (List.length l) <= k <= N.of_nat (List.length l) + 1.
Proof. exact c76_resize. Qed.
Print Assumptions C76_resize.
Example C76_resize_ex :
  let net a m := @new_with_mask (addr V4) ipv4_ops a m in
  (r <- @resize_network debug_env (addr V4) ipv4_ops (net (ip4 10 0 0 0) (ip4 255 255 255 0)) (ip4 255 255 255 192) ;; Ret (List.length (fst r), snd r)) =
    Ret (4%nat, Gt).
Proof. ex. Qed.

Theorem C76_enumerate : forall (R : Rust) (F : family) (n : net F) (l : list (addr F)),
  wf_net n -> enumerate_net n = Ret l ->
  exists start, enumerate_net n = while enumerate_step start /\
    takes enumerate_step start (N.of_nat (List.length l) + 1) l.
Proof. exact c76_enumerate. Qed.
Print Assumptions C76_enumerate.
Example C76_enumerate_ex :
  (l <- @enumerate_net debug_env (addr V4) ipv4_ops (new_with_mask (ip4 10 0 0 0) (ip4 255 255 255 248)) ;; Ret (List.length l)) = Ret 8%nat.
Proof. ex. Qed.
