(** * Properties of address texts: C02, C03, C04, C05 *)
From Verif Require Import RustBase Addr Spec SpecText Demo Pf_Text.

(** ** C02: IPv4 addresses as text *)
Theorem C02_display : forall (a : addr V4),
  valid a ->
  exists bs ts, List.length bs = 4%nat /\ u8s bs /\ be_value bs = value a /\
    Forall2 (usual 10) bs ts /\ v4_display a = separated "." ts.
Proof. exact c02_display. Qed.
Print Assumptions C02_display.
Example C02_display_ex : valid (ip4 192 0 2 10) /\ v4_display (ip4 192 0 2 10) = lit "192.0.2.10".
Proof. ex. Qed.

Theorem C02_roundtrip : forall (a : addr V4), valid a -> v4_from_str (v4_display a) = ROk a.
Proof. exact c02_roundtrip. Qed.
Print Assumptions C02_roundtrip.
Example C02_roundtrip_ex :
  valid (ip4 10 255 0 9) /\ v4_from_str (lit "10.255.0.9") = ROk (ip4 10 255 0 9).
Proof. ex. Qed.

(** ** C03: what the IPv4 parser accepts *)
Theorem C03_accepts : forall (s : str) (a : addr V4),
  v4_from_str s = ROk a <-> valid a /\ v4_text s a.
Proof. exact c03_accepts. Qed.
Print Assumptions C03_accepts.
Example C03_accepts_ex :
  v4_from_str (lit "+10.020.0.00000000255") = ROk (ip4 10 20 0 255) /\
  v4_text (lit "10.1.2.3") (ip4 10 1 2 3).
Proof.
  split; [vm_compute; reflexivity|].
  exists (lit "10"), (lit "1"), (lit "2"), (lit "3"), 10, 1, 2, 3.
  repeat split; try (left; reflexivity); vm_compute; congruence.
Qed.

Theorem C03_chunk_count : forall (s : str) (k n : nat),
  v4_from_str s = RErr (IncorrectChunkCount k n) <->
  k <> 4%nat /\ n = 4%nat /\
  exists ts : list str, List.length ts = k /\ ts <> [] /\ Forall (fun t : str => ~ In "."%char t) ts /\ s = separated "." ts.
Proof. exact c03_chunk_count. Qed.
Print Assumptions C03_chunk_count.
Example C03_chunk_count_ex :
  v4_from_str (lit "1.2.3") = RErr (IncorrectChunkCount 3 4) /\
  v4_from_str (lit "1.2.3.4.") = RErr (IncorrectChunkCount 5 4).
Proof. ex. Qed.

Theorem C03_first_bad_chunk : forall (ts us : list str) (t : str) (xs : list N),
  List.length (ts ++ t :: us) = 4%nat ->
  Forall (fun t : str => ~ In "."%char t) (ts ++ t :: us) ->
  Forall2 (fun x t => written 10 t x /\ x <= 255) xs ts ->
  (t = [] -> v4_from_str (separated "." (ts ++ t :: us)) = RErr (EmptyChunk (List.length ts))) /\
  (forall x, written 10 t x -> 255 < x < 2 ^ 32 ->
     v4_from_str (separated "." (ts ++ t :: us)) = RErr (ChunkOutOfRange (List.length ts) x 0 255)) /\
  (t <> [] -> (forall x, written 10 t x -> 2 ^ 32 <= x) ->
     exists e, v4_from_str (separated "." (ts ++ t :: us)) = RErr (ChunkParseError (List.length ts) t e)).
Proof. exact c03_first_bad_chunk. Qed.
Print Assumptions C03_first_bad_chunk.
Example C03_first_bad_chunk_ex :
  v4_from_str (lit "1..3.") = RErr (EmptyChunk 1) /\
  v4_from_str (lit "1.2.256.999") = RErr (ChunkOutOfRange 2 256 0 255) /\
  v4_from_str (lit "1.2.3.4x") = RErr (ChunkParseError 3 (lit "4x") IE_InvalidDigit) /\
  v4_from_str (lit "1.4294967296.3.x") = RErr (ChunkParseError 1 (lit "4294967296") IE_PosOverflow).
Proof. ex. Qed.

(** ** C04: IPv6 addresses as text *)
Theorem C04_display_full : forall (a : addr V6) (gs : list N),
  has_groups a gs -> Forall (fun g => g <> 0) gs ->
  exists ts, Forall2 (usual 16) gs ts /\ v6_display a = separated ":" ts.
Proof. exact c04_display_full. Qed.
Print Assumptions C04_display_full.
Example C04_display_full_ex :
  has_groups (ip6 0x2001 0xdb8 1 2 3 4 5 0xffff) [0x2001; 0xdb8; 1; 2; 3; 4; 5; 0xffff] /\
  v6_display (ip6 0x2001 0xdb8 1 2 3 4 5 0xffff) = lit "2001:db8:1:2:3:4:5:ffff".
Proof. unfold has_groups, u16s. ex. Qed.

Theorem C04_display_short : forall (a : addr V6) (gs : list N) (z k : nat),
  has_groups a gs -> first_longest_run gs z k ->
  exists ts, Forall2 (usual 16) gs ts /\
    v6_display a = separated ":" (firstn z ts) ++ lit "::" ++ separated ":" (skipn (z + k) ts).
Proof. exact c04_display_short. Qed.
Print Assumptions C04_display_short.
Example C04_display_short_ex :
  v6_display (ip6 0x2001 0xdb8 0 0 1 0 0 0x12ff) = lit "2001:db8::1:0:0:12ff" /\
  v6_display (ip6 1 0 2 0 0 3 0 0) = lit "1:0:2::3:0:0" /\
  v6_display (ip6 1 0 2 3 4 5 6 7) = lit "1::2:3:4:5:6:7".
Proof. ex. Qed.

Theorem C04_roundtrip : forall (a : addr V6) (gs : list N),
  has_groups a gs -> ~ lonely gs -> v6_from_str (v6_display a) = Ret (ROk a).
Proof. exact c04_roundtrip. Qed.
Print Assumptions C04_roundtrip.
Example C04_roundtrip_ex :
  v6_from_str (v6_display (ip6 0x2001 0xdb8 0 0 1 0 0 0x12ff)) = Ret (ROk (ip6 0x2001 0xdb8 0 0 1 0 0 0x12ff)) /\
  v6_from_str (v6_display (ip6 0 0 1 0 0 0 0 0)) = Ret (ROk (ip6 0 0 1 0 0 0 0 0)).
Proof. ex. Qed.

Theorem C04_lonely_rejected : forall (a : addr V6) (gs : list N),
  has_groups a gs -> lonely gs ->
  v6_from_str (v6_display a) = Ret (RErr (IncorrectChunkCount 9 8)).
Proof. exact c04_lonely_rejected. Qed.
Print Assumptions C04_lonely_rejected.
Example C04_lonely_rejected_ex :
  v6_display (ip6 0 1 2 3 4 5 6 7) = lit "::1:2:3:4:5:6:7" /\
  v6_from_str (lit "::1:2:3:4:5:6:7") = Ret (RErr (IncorrectChunkCount 9 8)).
Proof. ex. Qed.

Theorem C04_always_roundtrips_refuted : exists a : addr V6,
  valid a /\ v6_from_str (v6_display a) <> Ret (ROk a).
Proof. exact c04_always_roundtrips_refuted. Qed.
Print Assumptions C04_always_roundtrips_refuted.

Theorem C04_injective : forall (a b : addr V6),
  valid a -> valid b -> v6_display a = v6_display b -> a = b.
Proof. exact c04_injective. Qed.
Print Assumptions C04_injective.
Example C04_injective_ex :
  v6_display (ip6 0 1 2 3 4 5 6 7) <> v6_display (ip6 1 2 3 4 5 6 7 0).
Proof. vm_compute. congruence. Qed.

(** ** C05: what the IPv6 parser accepts *)
Theorem C05_accepts : forall (s : str) (a : addr V6),
  v6_from_str s = Ret (ROk a) <-> v6_text s a.
Proof. exact c05_accepts. Qed.
Print Assumptions C05_accepts.
Example C05_accepts_ex :
  v6_from_str (lit "2001:DB8::+1:0:00012ff") = Ret (ROk (ip6 0x2001 0xdb8 0 0 0 1 0 0x12ff)) /\
  padded (lit "::1:") = lit "0::1:0".
Proof. ex. Qed.

Theorem C05_returns : forall (s : str), exists r, v6_from_str s = Ret r.
Proof. exact c05_returns. Qed.
Print Assumptions C05_returns.
Example C05_returns_ex :
  v6_from_str (lit "1:2:3") = Ret (RErr (IncorrectChunkCount 3 8)) /\
  v6_from_str (lit "1::2::3") = Ret (RErr (TooManyShorteningElements 2 1)).
Proof. ex. Qed.

Theorem C05_full_form : forall (s : str) (gs : list N),
  v6_full s gs -> exists a, has_groups a gs /\ v6_from_str s = Ret (ROk a).
Proof. exact c05_full_form. Qed.
Print Assumptions C05_full_form.
Example C05_full_form_ex :
  v6_from_str (lit "1:2:3:4:5:6:7:8") = Ret (ROk (ip6 1 2 3 4 5 6 7 8)).
Proof. ex. Qed.

Theorem C05_short_form : forall (s : str) (l r gs : list N),
  v6_short s l r gs -> (List.length l + List.length r <= 7)%nat ->
  (l = [] -> List.length r <= 6)%nat -> (r = [] -> List.length l <= 6)%nat ->
  exists a, has_groups a gs /\ v6_from_str s = Ret (ROk a).
Proof. exact c05_short_form. Qed.
Print Assumptions C05_short_form.
Example C05_short_form_ex :
  v6_from_str (lit "::1") = Ret (ROk (ip6 0 0 0 0 0 0 0 1)) /\
  v6_from_str (lit "fe80::") = Ret (ROk (ip6 0xfe80 0 0 0 0 0 0 0)) /\
  v6_from_str (lit "::") = Ret (ROk (ip6 0 0 0 0 0 0 0 0)) /\
  v6_from_str (lit "1:2:3::5:6:7:8") = Ret (ROk (ip6 1 2 3 0 5 6 7 8)).
Proof. ex. Qed.

Theorem C05_short_form_at_edge_rejected : forall (s : str) (l r gs : list N),
  v6_short s l r gs -> (List.length l + List.length r = 7)%nat -> l = [] \/ r = [] ->
  v6_from_str s = Ret (RErr (IncorrectChunkCount 9 8)).
Proof. exact c05_short_form_at_edge_rejected. Qed.
Print Assumptions C05_short_form_at_edge_rejected.
Example C05_short_form_at_edge_rejected_ex :
  v6_from_str (lit "1:2:3:4:5:6:7::") = Ret (RErr (IncorrectChunkCount 9 8)).
Proof. ex. Qed.

Theorem C05_only_proper_forms_refuted : exists (s : str) (a : addr V6),
  v6_from_str s = Ret (ROk a) /\
  ~ (exists gs, v6_full s gs) /\ ~ (exists l r gs, v6_short s l r gs).
Proof. exact c05_only_proper_forms_refuted. Qed.
Print Assumptions C05_only_proper_forms_refuted.
Example C05_only_proper_forms_refuted_ex :
  v6_from_str (lit ":2:3:4:5:6:7:8") = Ret (ROk (ip6 0 2 3 4 5 6 7 8)) /\
  v6_from_str (lit "") = Ret (ROk (ip6 0 0 0 0 0 0 0 0)).
Proof. ex. Qed.
