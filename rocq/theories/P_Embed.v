(** * Properties of IPv6 networks that stand for IPv4 networks: C82 *)
From Verif Require Import RustBase Addr Cidr BitManip Net Derange Minimize Split Resize Enumerate Spec SpecMove Demo Pf_Embed.

Definition ex_four (a b c d m : N) : net V4 := @new_with_mask (addr V4) ipv4_ops (ip4 a b c d) (ip4 255 0 255 m).
(** The same below 64:ff9b::/96. *)
Definition ex_six (a b c d m : N) : net V6 :=
  @new_with_mask (addr V6) (@ipv6_ops debug_env)
    (ip6 0x64 0xff9b 0 0 0 0 (256 * a + b) (256 * c + d)) (ip6 0xffff 0xffff 0xffff 0xffff 0xffff 0xffff 0xff00 (0xff00 + m)).
Definition ex_pre : N := 0x0064ff9b0000000000000000.

(** ** C82: IPv6 networks that stand for IPv4 networks are treated like these *)
(** There is exactly one such network, holding exactly the addresses that stand for the addresses. *)
Theorem C82_embedded : forall (R : Rust) (pre : N) (n : net V4),
  pre < 2 ^ 96 -> wf_net n ->
  exists n', embedded pre n n' /\ (forall n'', embedded pre n n'' -> n'' = n') /\
    (forall a' : addr V6, valid a' -> (member n' a' <-> exists a, valid a /\ embedded_addr pre a a' /\ member n a)) /\
    forall p, is_cidr n p <-> is_cidr n' (96 + p).
Proof. exact c82_embedded. Qed.
Print Assumptions C82_embedded.
Example C82_embedded_ex :
  value (base_addr (ex_six 10 0 3 0 0)) = ex_pre * 2 ^ 32 + value (base_addr (ex_four 10 0 3 0 0)) /\
  value (subnet_mask (ex_six 10 0 3 0 0)) = (2 ^ 96 - 1) * 2 ^ 32 + value (subnet_mask (ex_four 10 0 3 0 0)).
Proof. ex. Qed.

Theorem C82_answers : forall (R : Rust) (pre : N) (n m : net V4) (n' m' : net V6) (a : addr V4) (a' : addr V6),
  wf_net n -> wf_net m -> valid a -> embedded pre n n' -> embedded pre m m' -> embedded_addr pre a a' ->
  contains n' a' = contains n a /\
  is_superset_of n' m' = is_superset_of n m /\
  intersects n' m' = intersects n m /\
  address_count n' = address_count n /\ host_count n' = host_count n /\
  embedded_answer pre (first_host_addr n) (first_host_addr n') /\
  embedded_answer pre (last_host_addr n) (last_host_addr n') /\
  embedded_answer pre (broadcast_addr n) (broadcast_addr n').
Proof. exact c82_answers. Qed.
Print Assumptions C82_answers.
Example C82_answers_ex :
  let n := ex_four 10 0 3 0 0 in let n' := ex_six 10 0 3 0 0 in
  @address_count (addr V6) (@ipv6_ops debug_env) n' = 65536 /\ @address_count (addr V4) ipv4_ops n = 65536 /\
  @first_host_addr (addr V4) ipv4_ops n = Ret (Some (ip4 10 0 3 1)) /\
  @first_host_addr (addr V6) (@ipv6_ops debug_env) n' = Ret (Some (ip6 0x64 0xff9b 0 0 0 0 0xa00 0x301)) /\
  @broadcast_addr debug_env (addr V4) ipv4_ops n = Ret (Some (ip4 10 255 3 255)) /\
  @broadcast_addr debug_env (addr V6) (@ipv6_ops debug_env) n' = Ret (Some (ip6 0x64 0xff9b 0 0 0 0 0xaff 0x3ff)).
Proof. ex. Qed.

Theorem C82_enumerate : forall (R : Rust) (pre : N) (n : net V4) (n' : net V6) (l : list (addr V4)),
  wf_net n -> embedded pre n n' -> enumerate_net n = Ret l ->
  exists l', enumerate_net n' = Ret l' /\ Forall2 (embedded_addr pre) l l'.
Proof. exact c82_enumerate. Qed.
Print Assumptions C82_enumerate.
Example C82_enumerate_ex :
  @enumerate_net debug_env (addr V4) ipv4_ops (@new_with_mask (addr V4) ipv4_ops (ip4 10 0 3 0) (ip4 255 254 255 255)) = Ret [ip4 10 0 3 0; ip4 10 1 3 0] /\
  @enumerate_net debug_env (addr V6) (@ipv6_ops debug_env)
    (@new_with_mask (addr V6) (@ipv6_ops debug_env) (ip6 0x64 0xff9b 0 0 0 0 0xa00 0x300) (ip6 0xffff 0xffff 0xffff 0xffff 0xffff 0xffff 0xfffe 0xffff)) =
    Ret [ip6 0x64 0xff9b 0 0 0 0 0xa00 0x300; ip6 0x64 0xff9b 0 0 0 0 0xa01 0x300].
Proof. ex. Qed.

Theorem C82_minimize : forall (R : Rust) (pre : N) (l r : list (net V4)) (l' : list (net V6)),
  pre < 2 ^ 96 -> Forall wf_net l -> Forall2 (embedded pre) l l' -> minimize_subnets l = Ret r ->
  exists r', minimize_subnets l' = Ret r' /\ Forall2 (embedded pre) r r'.
Proof. exact c82_minimize. Qed.
Print Assumptions C82_minimize.
Example C82_minimize_ex :
  @minimize_subnets debug_env (addr V4) ipv4_ops [ex_four 10 0 3 3 255; ex_four 10 0 3 1 255; ex_four 10 0 3 2 255; ex_four 10 0 3 4 4] =
    Ret [ex_four 10 0 3 1 255; ex_four 10 0 3 2 254; ex_four 10 0 3 4 4] /\
  @minimize_subnets debug_env (addr V6) (@ipv6_ops debug_env) [ex_six 10 0 3 3 255; ex_six 10 0 3 1 255; ex_six 10 0 3 2 255; ex_six 10 0 3 4 4] =
    Ret [ex_six 10 0 3 1 255; ex_six 10 0 3 2 254; ex_six 10 0 3 4 4].
Proof. ex. Qed.

Theorem C82_derange : forall (R : Rust) (pre : N) (a b : addr V4) (a' b' : addr V6) (l : list (net V4)),
  valid a -> valid b -> embedded_addr pre a a' -> embedded_addr pre b b' -> range_to_subnets a b = Ret l ->
  exists l', range_to_subnets a' b' = Ret l' /\ Forall2 (embedded pre) l l'.
Proof. exact c82_derange. Qed.
Print Assumptions C82_derange.
Example C82_derange_ex :
  @range_to_subnets debug_env (addr V4) ipv4_ops (ip4 10 0 0 3) (ip4 10 0 0 8) =
    Ret (map (fun '(k, m) => @new_with_mask (addr V4) ipv4_ops (ip4 10 0 0 k) (ip4 255 255 255 m)) [(3, 255); (4, 252); (8, 255)]) /\
  @range_to_subnets debug_env (addr V6) (@ipv6_ops debug_env) (ip6 0x64 0xff9b 0 0 0 0 0xa00 3) (ip6 0x64 0xff9b 0 0 0 0 0xa00 8) =
    Ret (map (fun '(k, m) => @new_with_mask (addr V6) (@ipv6_ops debug_env) (ip6 0x64 0xff9b 0 0 0 0 0xa00 k)
           (ip6 0xffff 0xffff 0xffff 0xffff 0xffff 0xffff 0xffff (0xff00 + m))) [(3, 255); (4, 252); (8, 255)]).
Proof. ex. Qed.

Theorem C82_resize : forall (R : Rust) (pre : N) (n : net V4) (n' : net V6) (m : addr V4) (m' : addr V6) (l : list (net V4)) (o : comparison),
  pre < 2 ^ 96 -> wf_net n -> valid m -> embedded pre n n' -> embedded_addr (2 ^ 96 - 1) m m' ->
  resize_network n m = Ret (l, o) ->
  exists l', resize_network n' m' = Ret (l', o) /\ Forall2 (embedded pre) l l'.
Proof. exact c82_resize. Qed.
Print Assumptions C82_resize.
Example C82_resize_ex :
  @resize_network debug_env (addr V4) ipv4_ops (ex_four 10 0 3 0 255) (ip4 255 0x80 255 255) =
    Ret (map (fun b => @new_with_mask (addr V4) ipv4_ops (ip4 10 0 6 b) (ip4 255 0x80 255 255)) [0; 1], Gt) /\
  @resize_network debug_env (addr V6) (@ipv6_ops debug_env) (ex_six 10 0 3 0 255) (ip6 0xffff 0xffff 0xffff 0xffff 0xffff 0xffff 0xff80 0xffff) =
    Ret (map (fun b => @new_with_mask (addr V6) (@ipv6_ops debug_env) (ip6 0x64 0xff9b 0 0 0 0 0xa00 (0x600 + b))
           (ip6 0xffff 0xffff 0xffff 0xffff 0xffff 0xffff 0xff80 0xffff)) [0; 1], Gt).
Proof. ex. Qed.

Theorem C82_split : forall (R : Rust) (pre : N) (n : net V4) (n' : net V6) (cs : list Z) (r : list (net V4)),
  pre < 2 ^ 96 -> wf_net n -> embedded pre n n' -> split_subnet n cs = Ret (Some r) ->
  exists r2 r', Forall2 (embedded pre) r r2 /\ split_subnet n' cs = Ret (Some r') /\
    Permutation (combine cs r2) (combine cs r') /\ (NoDup cs -> r2 = r').
Proof. exact c82_split. Qed.
Print Assumptions C82_split.
Example C82_split_ex :
  match @split_subnet debug_env (addr V4) ipv4_ops (ex_four 10 0 3 0 0) [5%Z; 60%Z],
        @split_subnet debug_env (addr V6) (@ipv6_ops debug_env) (ex_six 10 0 3 0 0) [5%Z; 60%Z] with
  | Ret (Some [n; m]), Ret (Some [n'; m']) =>
      base_addr n = ip4 10 0 3 64 /\ base_addr n' = ip6 0x64 0xff9b 0 0 0 0 0xa00 0x340 /\ cidr_prefix n = Some 29 /\ cidr_prefix n' = Some 125 /\
      base_addr m = ip4 10 0 3 0 /\ base_addr m' = ip6 0x64 0xff9b 0 0 0 0 0xa00 0x300
  | _, _ => False
  end.
Proof. ex. Qed.

(** The reverse does not hold: a split can succeed beyond the last IPv4 address. *)
Theorem C82_split_back_refuted : exists (pre : N) (n : net V4) (n' : net V6) (cs : list Z) (r : list (net V6)),
  pre < 2 ^ 96 /\ wf_net n /\ embedded pre n n' /\
  @split_subnet debug_env (addr V6) (@ipv6_ops debug_env) n' cs = Ret (Some r) /\
  @split_subnet debug_env (addr V4) ipv4_ops n cs = Ret None.
Proof. exact c82_split_back_refuted. Qed.
Print Assumptions C82_split_back_refuted.
