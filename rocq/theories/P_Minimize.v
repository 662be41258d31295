(** * Properties of minimize (minimize_subnets): C39 - C45 *)
From Verif Require Import RustBase Addr Cidr BitManip Net Minimize Spec Demo Pf_Minimize.

Definition ex_nets : list (net V4) :=
  map (fun k => @new_with_mask (addr V4) ipv4_ops (ip4 10 0 0 k) (ip4 255 255 255 192)) [192; 0; 64; 0] ++
  [@new_with_mask (addr V4) ipv4_ops (ip4 10 0 0 80) (ip4 255 255 255 248);
   @new_with_mask (addr V4) ipv4_ops (ip4 10 0 0 64) (ip4 255 255 255 192)].

(** ** C39: the same addresses, and no more networks than before *)
Theorem C39_same_addresses : forall (R : Rust) (F : family) (l : list (net F)),
  Forall wf_net l ->
  exists r, minimize_subnets l = Ret r /\
    forall c : addr F, valid c ->
      ((exists n, In n r /\ member n c) <-> (exists n, In n l /\ member n c)).
Proof. exact c39_same_addresses. Qed.
Print Assumptions C39_same_addresses.
Example C39_same_addresses_ex :
  @minimize_subnets debug_env (addr V4) ipv4_ops ex_nets =
    Ret [@new_with_mask (addr V4) ipv4_ops (ip4 10 0 0 0) (ip4 255 255 255 128);
         @new_with_mask (addr V4) ipv4_ops (ip4 10 0 0 192) (ip4 255 255 255 192)].
Proof. ex. Qed.

Theorem C39_not_longer : forall (R : Rust) (F : family) (l r : list (net F)),
  Forall wf_net l -> minimize_subnets l = Ret r -> (List.length r <= List.length l)%nat.
Proof. exact c39_not_longer. Qed.
Print Assumptions C39_not_longer.
Example C39_not_longer_ex :
  exists r, @minimize_subnets debug_env (addr V4) ipv4_ops ex_nets = Ret r /\ List.length r = 2%nat /\ List.length ex_nets = 6%nat.
Proof. ex. Qed.

(** ** C40: always returns *)
Theorem C40_returns : forall (R : Rust) (F : family) (l : list (net F)),
  Forall wf_net l -> exists r, minimize_subnets l = Ret r /\ Forall wf_net r.
Proof. exact c40_returns. Qed.
Print Assumptions C40_returns.
Example C40_returns_ex :
  @minimize_subnets debug_env (addr V6) (@ipv6_ops debug_env)
    [@new_with_mask (addr V6) (@ipv6_ops debug_env) (ip6 0xffff 0 0 0 0 0 0 0) (ip6 0xffff 0 0xffff 0 0xffff 0 0 0xffff);
     @new_with_mask (addr V6) (@ipv6_ops debug_env) (ip6 0xffff 0 0 0 0 0 0 1) (ip6 0xffff 0 0xffff 0 0xffff 0 0 0xffff)] =
  Ret [@new_with_mask (addr V6) (@ipv6_ops debug_env) (ip6 0xffff 0 0 0 0 0 0 0) (ip6 0xffff 0 0xffff 0 0xffff 0 0 0xfffe)].
Proof. ex. Qed.

(** ** C41: no network of the result includes another *)
Theorem C41_irredundant : forall (R : Rust) (F : family) (l r : list (net F)),
  Forall (fun n => exists p, is_cidr n p) l -> minimize_subnets l = Ret r ->
  forall n n', In n r -> In n' r -> share n n' -> n = n'.
Proof. exact c41_irredundant. Qed.
Print Assumptions C41_irredundant.
Example C41_irredundant_ex :
  @minimize_subnets release_env (addr V4) ipv4_ops
    [@new_with_mask (addr V4) ipv4_ops (ip4 10 0 0 0) (ip4 255 0 0 0);
     @new_with_mask (addr V4) ipv4_ops (ip4 10 9 0 0) (ip4 255 255 0 0)] =
  Ret [@new_with_mask (addr V4) ipv4_ops (ip4 10 0 0 0) (ip4 255 0 0 0)].
Proof. ex. Qed.

(** Two networks can be merged into one that includes a third. *)
Theorem C41_mixed_refuted : exists (l r : list (net V4)) (n n' : net V4),
  Forall wf_net l /\ @minimize_subnets debug_env (addr V4) ipv4_ops l = Ret r /\
  In n r /\ In n' r /\ n <> n' /\ includes n n'.
Proof. exact c41_mixed_refuted. Qed.
Print Assumptions C41_mixed_refuted.

(** ** C42: for CIDR networks the result is the shortest list *)
Theorem C42_shortest : forall (R : Rust) (F : family) (l l' r : list (net F)),
  Forall (fun n => exists p, is_cidr n p) l -> minimize_subnets l = Ret r ->
  Forall (fun n => exists p, is_cidr n p) l' ->
  (forall c : addr F, valid c ->
     ((exists n, In n l' /\ member n c) <-> (exists n, In n l /\ member n c))) ->
  Forall (fun n => exists p, is_cidr n p) r /\ (List.length r <= List.length l')%nat.
Proof. exact c42_shortest. Qed.
Print Assumptions C42_shortest.
Example C42_shortest_ex :
  @minimize_subnets debug_env (addr V4) ipv4_ops
    (map (fun k => @new_with_mask (addr V4) ipv4_ops (ip4 10 0 0 k) (ip4 255 255 255 255)) [3; 2; 1; 4; 5; 6; 7]) =
  Ret [@new_with_mask (addr V4) ipv4_ops (ip4 10 0 0 1) (ip4 255 255 255 255);
       @new_with_mask (addr V4) ipv4_ops (ip4 10 0 0 2) (ip4 255 255 255 254);
       @new_with_mask (addr V4) ipv4_ops (ip4 10 0 0 4) (ip4 255 255 255 252)].
Proof. ex. Qed.

Theorem C42_in_one : forall (R : Rust) (F : family) (l r : list (net F)) (n : net F) (p : N),
  Forall (fun n => exists p, is_cidr n p) l -> minimize_subnets l = Ret r ->
  is_cidr n p ->
  (forall c : addr F, valid c -> member n c -> exists e, In e l /\ member e c) ->
  exists e, In e r /\ includes e n.
Proof. exact c42_in_one. Qed.
Print Assumptions C42_in_one.
Example C42_in_one_ex :
  @minimize_subnets debug_env (addr V4) ipv4_ops
    [@new_with_mask (addr V4) ipv4_ops (ip4 128 0 0 0) (ip4 128 0 0 0); @new_with_mask (addr V4) ipv4_ops (ip4 0 0 0 0) (ip4 128 0 0 0)] =
  Ret [@new_with_mask (addr V4) ipv4_ops (ip4 0 0 0 0) (ip4 0 0 0 0)].
Proof. ex. Qed.

(** ** C43: for CIDR networks the result depends on the set of addresses only *)
Theorem C43_canonical : forall (R R' : Rust) (F : family) (l l' : list (net F)),
  Forall (fun n => exists p, is_cidr n p) l -> Forall (fun n => exists p, is_cidr n p) l' ->
  (forall c : addr F, valid c ->
     ((exists n, In n l' /\ member n c) <-> (exists n, In n l /\ member n c))) ->
  @minimize_subnets R' (addr F) (@addr_ops R' F) l' = @minimize_subnets R (addr F) (@addr_ops R F) l.
Proof. exact c43_canonical. Qed.
Print Assumptions C43_canonical.
Example C43_canonical_ex :
  @minimize_subnets debug_env (addr V4) ipv4_ops
    [@new_with_mask (addr V4) ipv4_ops (ip4 10 0 0 0) (ip4 255 255 255 192); @new_with_mask (addr V4) ipv4_ops (ip4 10 0 0 64) (ip4 255 255 255 192);
     @new_with_mask (addr V4) ipv4_ops (ip4 10 0 0 192) (ip4 255 255 255 192)] =
  @minimize_subnets reverse_env (addr V4) ipv4_ops
    [@new_with_mask (addr V4) ipv4_ops (ip4 10 0 0 192) (ip4 255 255 255 192); @new_with_mask (addr V4) ipv4_ops (ip4 10 0 0 0) (ip4 255 255 255 128);
     @new_with_mask (addr V4) ipv4_ops (ip4 10 0 0 5) (ip4 255 255 255 255)].
Proof. ex. Qed.

(** ** C44: sorted and determined by the set of input networks *)
Theorem C44_sorted : forall (R : Rust) (F : family) (l r : list (net F)),
  Forall wf_net l -> minimize_subnets l = Ret r ->
  StronglySorted (fun n n' : net F =>
    value (base_addr n) < value (base_addr n') \/
    value (base_addr n) = value (base_addr n') /\ value (subnet_mask n) < value (subnet_mask n')) r.
Proof. exact c44_sorted. Qed.
Print Assumptions C44_sorted.
Example C44_sorted_ex :
  @minimize_subnets debug_env (addr V4) ipv4_ops
    [@new_with_mask (addr V4) ipv4_ops (ip4 10 0 0 0) (ip4 255 255 0 255); @new_with_mask (addr V4) ipv4_ops (ip4 10 0 0 0) (ip4 255 255 255 0);
     @new_with_mask (addr V4) ipv4_ops (ip4 9 0 0 0) (ip4 255 255 255 0)] =
  Ret [@new_with_mask (addr V4) ipv4_ops (ip4 9 0 0 0) (ip4 255 255 255 0); @new_with_mask (addr V4) ipv4_ops (ip4 10 0 0 0) (ip4 255 255 0 255);
     @new_with_mask (addr V4) ipv4_ops (ip4 10 0 0 0) (ip4 255 255 255 0)].
Proof. ex. Qed.

Theorem C44_deterministic : forall (R R' : Rust) (F : family) (l l' : list (net F)),
  Forall wf_net l -> (forall n, In n l <-> In n l') ->
  @minimize_subnets R' (addr F) (@addr_ops R' F) l' = @minimize_subnets R (addr F) (@addr_ops R F) l.
Proof. exact c44_deterministic. Qed.
Print Assumptions C44_deterministic.
Example C44_deterministic_ex :
  @minimize_subnets reverse_env (addr V4) ipv4_ops (rev ex_nets ++ ex_nets) =
  @minimize_subnets debug_env (addr V4) ipv4_ops ex_nets.
Proof. ex. Qed.

(** ** C45: idempotence *)
Theorem C45_idempotent : forall (R : Rust) (F : family) (l r : list (net F)),
  Forall (fun n => exists p, is_cidr n p) l -> minimize_subnets l = Ret r ->
  minimize_subnets r = Ret r.
Proof. exact c45_idempotent. Qed.
Print Assumptions C45_idempotent.
Example C45_idempotent_ex :
  let r := [@new_with_mask (addr V4) ipv4_ops (ip4 10 0 0 0) (ip4 255 255 255 128);
            @new_with_mask (addr V4) ipv4_ops (ip4 10 0 0 192) (ip4 255 255 255 192)] in
  @minimize_subnets debug_env (addr V4) ipv4_ops ex_nets = Ret r /\
  @minimize_subnets debug_env (addr V4) ipv4_ops r = Ret r.
Proof. ex. Qed.

Theorem C45_mixed_refuted : exists (l r : list (net V4)),
  Forall wf_net l /\ @minimize_subnets debug_env (addr V4) ipv4_ops l = Ret r /\
  @minimize_subnets debug_env (addr V4) ipv4_ops r <> Ret r.
Proof. exact c45_mixed_refuted. Qed.
Print Assumptions C45_mixed_refuted.
