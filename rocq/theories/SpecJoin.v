(** * SpecJoin: vocabulary for what minimize makes of networks with any masks *)
From Verif Require Import RustBase Addr Net Spec.

(** [n] and [n'] are the halves of [e], told apart by the lowest bit of their mask;
    [n] is the lower one. *)
Definition halves {F : family} (e n n' : net F) : Prop :=
  wf_net e /\ wf_net n /\ wf_net n' /\
  exists k, k < width F /\
    N.testbit (value (subnet_mask n)) k = true /\
    (forall i, i < k -> N.testbit (value (subnet_mask n)) i = false) /\
    subnet_mask n' = subnet_mask n /\ base_addr n = base_addr e /\
    value (subnet_mask n) = value (subnet_mask e) + 2 ^ k /\
    value (base_addr n') = value (base_addr e) + 2 ^ k.

(** Order by base, then by mask. *)
Definition before {F : family} (n n' : net F) : Prop :=
  value (base_addr n) < value (base_addr n') \/
  value (base_addr n) = value (base_addr n') /\ value (subnet_mask n) < value (subnet_mask n').

(** [o] holds those networks of [l] that are not inside another one of [l]. *)
Definition outermost {F : family} (l o : list (net F)) : Prop :=
  forall n, In n o <-> In n l /\ forall n', In n' l -> includes n' n -> n' = n.

(** Starting from the networks in [l], halves are replaced by what they are the
    halves of, always the first ones in order, until there are none; [r] lists in
    order what is left. *)
Inductive joined {F : family} (l r : list (net F)) : Prop :=
| joined_done :
    (forall e n n', In n l -> In n' l -> ~ halves e n n') ->
    (forall n, In n r <-> In n l) -> StronglySorted before r -> joined l r
| joined_step (e n n' : net F) (l' : list (net F)) :
    In n l -> In n' l -> halves e n n' ->
    (forall d m m', In m l -> In m' l -> halves d m m' -> m = n \/ before n m) ->
    (forall x, In x l' <-> x = e \/ In x l /\ x <> n /\ x <> n') ->
    joined l' r -> joined l r.
