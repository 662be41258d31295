(** * P_Hash: the derived hash functions (C92) *)
From Verif Require Import RustBase Addr Net Parse Console Hashing Spec SpecOrder SpecHash Demo Pf_Hash.

(** ** C92: hashing keeps values apart *)
Theorem C92_tells_apart :
  tells_apart hash_v4 /\ tells_apart hash_v6 /\ tells_apart (hash_net hash_v4) /\ tells_apart (hash_net hash_v6) /\
  tells_apart hash_parsed /\ tells_apart hash_spec /\ tells_apart hash_specs /\ tells_apart hash_subnet /\ tells_apart hash_color.
Proof. exact c92_tells_apart. Qed.
Print Assumptions C92_tells_apart.
Example C92_tells_apart_ex :
  let n := new_with_mask (A := addr V4) (ip4 10 1 2 3) (ip4 255 255 0 0) in
  let n' := new_with_mask (A := addr V4) (ip4 10 1 2 3) (ip4 255 0 255 0) in
  hash_net hash_v4 n = [WriteU32 167837696; WriteU32 4294901760; WriteIsize 1; WriteUsize 16] /\
  hash_net hash_v4 n' = [WriteU32 167772672; WriteU32 4278255360; WriteIsize 0].
Proof. ex. Qed.

(** Values hashed one after the other. *)
Theorem C92_in_a_row : forall (T W : Type) (feed : T -> list W) (l l' : list T),
  tells_apart feed -> (forall x, feed x <> []) -> (flat_map feed l = flat_map feed l' <-> l = l').
Proof. exact c92_in_a_row. Qed.
Print Assumptions C92_in_a_row.
Example C92_in_a_row_ex : forall l l',
  flat_map (hash_net hash_v6) l = flat_map (hash_net hash_v6) l' -> l = l'.
Proof.
  intros l l' H. apply (C92_in_a_row _ _ (hash_net hash_v6)) in H; [exact H|apply C92_tells_apart|intros n; discriminate].
Qed.

(** Networks are equal exactly if they hash alike under every hasher; as sets of
    addresses, too. *)
Theorem C92_networks : forall (R : Rust) (F : family) (n n' : net F),
  wf_net n -> wf_net n' ->
  ((forall finish, hash_of (hash_net hash_addr) finish n = hash_of (hash_net hash_addr) finish n') <->
   forall a, valid a -> (member n a <-> member n' a)).
Proof. exact c92_networks. Qed.
Print Assumptions C92_networks.
Example C92_networks_ex :
  let n := new_with_mask (A := addr V4) (ip4 10 1 2 3) (ip4 255 255 0 0) in
  let n' := new_with_mask (A := addr V4) (ip4 10 1 9 9) (ip4 255 255 0 0) in
  let n'' := new_with_mask (A := addr V4) (ip4 10 1 9 9) (ip4 255 255 128 0) in
  let f := fun l => N.of_nat (List.length l) in
  hash_of (hash_net hash_v4) f n = hash_of (hash_net hash_v4) f n' /\
  hash_net hash_v4 n = hash_net hash_v4 n' /\ hash_net hash_v4 n <> hash_net hash_v4 n''.
Proof. ex. Qed.

(** First goes the place of the variant in its declaration. *)
Theorem C92_variants :
  (forall a, exists l, hash_parsed a = WriteIsize (parsed_place a) :: l) /\
  (forall s, exists l, hash_spec s = WriteIsize (spec_place s) :: l) /\
  (forall s, exists l, hash_specs s = WriteIsize (specs_place s) :: l) /\
  (forall s, exists l, hash_subnet s = WriteIsize (subnet_place s) :: l) /\
  (forall c, hash_color c = [WriteIsize (color_place c)]).
Proof. exact c92_variants. Qed.
Print Assumptions C92_variants.
Example C92_variants_ex :
  hash_parsed (PAddr6 (ip6 0 0 0 0 0 0 0 5)) = [WriteIsize 1; WriteU64 0; WriteU64 5] /\ hash_color White = [WriteIsize 15].
Proof. ex. Qed.
