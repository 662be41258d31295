(** * Properties of results elsewhere in the address space: C81 *)
From Verif Require Import RustBase Addr Cidr BitManip Net Derange Minimize Split Resize Spec SpecMove Demo Pf_Move.

Definition ex_net (a b c d m : N) : net V4 := @new_with_mask (addr V4) ipv4_ops (ip4 a b c d) (ip4 255 255 255 m).

(** ** C81: commands commute with flipping bits *)
(** Every wellformed network can be moved, to exactly one. *)
Theorem C81_moved : forall (R : Rust) (F : family) (x : N) (n : net F),
  x < 2 ^ width F -> wf_net n ->
  exists n', moved x n n' /\ moved x n' n /\ forall n'', moved x n n'' -> n'' = n'.
Proof. exact c81_moved. Qed.
Print Assumptions C81_moved.
Example C81_moved_ex :
  let n := ex_net 10 0 0 64 192 in let n' := ex_net 10 0 1 128 192 in
  @contains (addr V4) ipv4_ops n (ip4 10 0 0 65) = true /\ @contains (addr V4) ipv4_ops n' (ip4 10 0 1 129) = true /\
  value (ip4 10 0 1 129) = N.lxor (value (ip4 10 0 0 65)) (256 + 192).
Proof. ex. Qed.

Theorem C81_minimize : forall (R : Rust) (F : family) (x : N) (l l' r : list (net F)),
  x < 2 ^ width F -> Forall (fun n => exists p, is_cidr n p) l -> Forall2 (moved x) l l' ->
  minimize_subnets l = Ret r ->
  exists r2 r', Forall2 (moved x) r r2 /\ minimize_subnets l' = Ret r' /\ Permutation r2 r'.
Proof. exact c81_minimize. Qed.
Print Assumptions C81_minimize.
Example C81_minimize_ex :
  @minimize_subnets debug_env (addr V4) ipv4_ops [ex_net 10 0 0 3 255; ex_net 10 0 0 1 255; ex_net 10 0 0 2 255] =
    Ret [ex_net 10 0 0 1 255; ex_net 10 0 0 2 254] /\
  @minimize_subnets debug_env (addr V4) ipv4_ops [ex_net 10 0 0 0 255; ex_net 10 0 0 2 255; ex_net 10 0 0 1 255] =
    Ret [ex_net 10 0 0 0 254; ex_net 10 0 0 2 255].
Proof. ex. Qed.

(** A range seen in a mirror gives the same networks seen in the mirror. *)
Theorem C81_derange_mirror : forall (R : Rust) (F : family) (a b a' b' : addr F) (l l' : list (net F)),
  valid a -> valid b -> valid a' -> valid b' ->
  value a' = 2 ^ width F - 1 - value a -> value b' = 2 ^ width F - 1 - value b ->
  range_to_subnets a b = Ret l -> range_to_subnets a' b' = Ret l' ->
  Forall2 (moved (2 ^ width F - 1)) l (rev l').
Proof. exact c81_derange_mirror. Qed.
Print Assumptions C81_derange_mirror.
Example C81_derange_mirror_ex :
  @range_to_subnets debug_env (addr V4) ipv4_ops (ip4 10 0 0 3) (ip4 10 0 0 8) =
    Ret [ex_net 10 0 0 3 255; ex_net 10 0 0 4 252; ex_net 10 0 0 8 255] /\
  @range_to_subnets debug_env (addr V4) ipv4_ops (ip4 245 255 255 252) (ip4 245 255 255 247) =
    Ret [ex_net 245 255 255 247 255; ex_net 245 255 255 248 252; ex_net 245 255 255 252 255].
Proof. ex. Qed.

(** A range inside a block gives the same networks in any other block of the same size. *)
Theorem C81_derange_block : forall (R : Rust) (F : family) (k x : N) (a b a' b' : addr F) (l l' : list (net F)),
  valid a -> valid b -> valid a' -> valid b' -> x < 2 ^ width F -> x mod 2 ^ k = 0 ->
  value a / 2 ^ k = value b / 2 ^ k ->
  value a' = N.lxor (value a) x -> value b' = N.lxor (value b) x ->
  range_to_subnets a b = Ret l -> range_to_subnets a' b' = Ret l' ->
  Forall2 (moved x) l l'.
Proof. exact c81_derange_block. Qed.
Print Assumptions C81_derange_block.
Example C81_derange_block_ex :
  @range_to_subnets debug_env (addr V4) ipv4_ops (ip4 10 0 0 3) (ip4 10 0 0 8) =
    Ret [ex_net 10 0 0 3 255; ex_net 10 0 0 4 252; ex_net 10 0 0 8 255] /\
  @range_to_subnets debug_env (addr V4) ipv4_ops (ip4 192 1 2 19) (ip4 192 1 2 24) =
    Ret [ex_net 192 1 2 19 255; ex_net 192 1 2 20 252; ex_net 192 1 2 24 255].
Proof. ex. Qed.

Theorem C81_resize : forall (R : Rust) (F : family) (x p q : N) (m : addr F) (n n' : net F) (l l' : list (net F)) (o o' : comparison),
  x < 2 ^ width F -> is_cidr n p -> moved x n n' -> valid m -> contiguous F (value m) q ->
  resize_network n m = Ret (l, o) -> resize_network n' m = Ret (l', o') ->
  o' = o /\ exists l2, Forall2 (moved x) l l2 /\ Permutation l2 l' /\ (x mod 2 ^ (width F - p) = 0 -> l2 = l').
Proof. exact c81_resize. Qed.
Print Assumptions C81_resize.
Example C81_resize_ex :
  @resize_network debug_env (addr V4) ipv4_ops (ex_net 10 0 0 64 192) (ip4 255 255 255 224) =
    Ret ([ex_net 10 0 0 64 224; ex_net 10 0 0 96 224], Gt) /\
  @resize_network debug_env (addr V4) ipv4_ops (ex_net 10 0 7 192 192) (ip4 255 255 255 224) =
    Ret ([ex_net 10 0 7 192 224; ex_net 10 0 7 224 224], Gt).
Proof. ex. Qed.

(** Splits of networks of the same size hand out the same parts of them, up to which of
    several requests for equally many hosts gets which. *)
Theorem C81_split : forall (R : Rust) (F : family) (x p : N) (cs : list Z) (n n' : net F) (r r' : list (net F)),
  x < 2 ^ width F -> is_cidr n p -> moved x n n' -> x mod 2 ^ (width F - p) = 0 -> total cs <= 2 ^ (width F - p) ->
  split_subnet n cs = Ret (Some r) -> split_subnet n' cs = Ret (Some r') ->
  exists r2, Forall2 (moved x) r r2 /\ Permutation (combine cs r2) (combine cs r') /\ (NoDup cs -> r2 = r').
Proof. exact c81_split. Qed.
Print Assumptions C81_split.
Example C81_split_ex :
  @split_subnet debug_env (addr V4) ipv4_ops (ex_net 10 0 0 0 0) [5%Z; 60%Z] = Ret (Some [ex_net 10 0 0 64 248; ex_net 10 0 0 0 192]) /\
  @split_subnet debug_env (addr V4) ipv4_ops (ex_net 10 9 8 0 0) [5%Z; 60%Z] = Ret (Some [ex_net 10 9 8 64 248; ex_net 10 9 8 0 192]).
Proof. ex. Qed.
