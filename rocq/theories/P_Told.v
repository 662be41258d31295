(** * P_Told: what is written tells what was asked (C77) *)
From Verif Require Import RustBase Addr Net Console Main Messages Process Spec SpecText SpecShow SpecMain SpecProcess SpecTold Demo Pf_Told.

(** ** C77: descriptions tell networks apart *)
(** Two processes that describe networks write the same bytes exactly if they were
    asked for the same addresses in the same networks in the same order. *)
Theorem C77_told : forall (U : Unicode) (R R' : Rust) (T : Terminal) (prog prog' : str) (ss ss' : list str),
  unicode prog -> unicode prog' -> show_request ss -> show_request ss' ->
  (on_stdout (@main U R T (prog :: ss)) = on_stdout (@main U R' T (prog' :: ss')) <-> Forall2 same_meaning ss ss').
Proof. exact c77_told. Qed.
Print Assumptions C77_told.
Example C77_told_ex :
  let out s := on_stdout (@main no_unicode debug_env plain [lit "ripcalc"; s]) in
  out (lit "10.0.0.1/8") = out (lit "010.0.0.1/255.0.0.0") /\ out (lit "10.0.0.1/8") <> out (lit "10.0.0.1/9").
Proof. exact c77_told_ex. Qed.

(** *** Texts of networks *)
Theorem C77_text : forall (R : Rust) (F : family) (n n' : net F),
  wf_net n -> wf_net n' -> net_display n = net_display n' -> n = n'.
Proof. exact c77_text. Qed.
Print Assumptions C77_text.
Example C77_text_ex :
  @net_display (addr V4) ipv4_ops (new_with_mask (ip4 10 1 2 0) (ip4 255 255 255 0)) = lit "10.1.2.0/24" /\
  @net_display (addr V4) ipv4_ops (new_with_mask (ip4 10 1 2 0) (ip4 255 255 255 1)) = lit "10.1.2.0/255.255.255.1".
Proof. ex. Qed.

Theorem C77_text_families : forall (R : Rust) (n : net V4) (n' : net V6),
  wf_net n -> wf_net n' -> @net_display (addr V4) (@addr_ops R V4) n <> @net_display (addr V6) (@addr_ops R V6) n'.
Proof. exact c77_text_families. Qed.
Print Assumptions C77_text_families.
Example C77_text_families_ex :
  @net_display (addr V4) ipv4_ops (new_with_mask (ip4 0 0 0 0) (ip4 0 0 0 0)) = lit "0.0.0.0/0" /\
  @net_display (addr V6) (@ipv6_ops debug_env) (@new_with_mask (addr V6) (@ipv6_ops debug_env) (ip6 0 0 0 0 0 0 0 0) (ip6 0 0 0 0 0 0 0 0)) = lit "::/0".
Proof. ex. Qed.

(** *** Minimizing *)
(** The same bytes: the same addresses. *)
Theorem C77_minimize : forall (U : Unicode) (R R' : Rust) (T T' : Terminal) (F F' : family) (prog prog' w w' : str) (ss ss' : list str),
  unicode prog -> unicode prog' -> In w minimize_words -> In w' minimize_words -> ss <> [] -> ss' <> [] ->
  Forall (of_family F) ss -> Forall (of_family F') ss' ->
  on_stdout (@main U R T (prog :: w :: ss)) = on_stdout (@main U R' T' (prog' :: w' :: ss')) ->
  forall G (c : addr G), valid c -> (covered ss c <-> covered ss' c).
Proof. exact c77_minimize. Qed.
Print Assumptions C77_minimize.
Example C77_minimize_ex :
  let out ss := on_stdout (@main no_unicode debug_env plain (lit "ripcalc" :: lit "-m" :: ss)) in
  out [lit "10.1.2.3/25"; lit "10.1.2.130/25"] = out [lit "10.1.2.6/255.255.255.1"; lit "10.1.2.7/255.255.255.1"].
Proof. ex. Qed.

(** For CIDR networks it is the other way round, too. *)
Theorem C77_minimize_cidr : forall (U : Unicode) (R R' : Rust) (T T' : Terminal) (F F' : family) (prog prog' w w' : str) (ss ss' : list str),
  unicode prog -> unicode prog' -> In w minimize_words -> In w' minimize_words -> cidr_texts F ss -> cidr_texts F' ss' ->
  (on_stdout (@main U R T (prog :: w :: ss)) = on_stdout (@main U R' T' (prog' :: w' :: ss')) <->
   forall G (c : addr G), valid c -> (covered ss c <-> covered ss' c)).
Proof. exact c77_minimize_cidr. Qed.
Print Assumptions C77_minimize_cidr.
Example C77_minimize_cidr_ex :
  let out ss := on_stdout (@main no_unicode debug_env plain (lit "ripcalc" :: lit "-m" :: ss)) in
  out [lit "10.1.2.3/25"; lit "10.1.2.130/25"] = out [lit "10.1.2.192/26"; lit "10.1.2.0/25"; lit "10.1.2.128/26"].
Proof. ex. Qed.

(** So minimizing answers whether the addresses of [ss] are among those of [ss']. *)
Theorem C77_inclusion : forall (U : Unicode) (R R' : Rust) (T T' : Terminal) (F : family) (prog prog' w w' : str) (ss ss' : list str),
  unicode prog -> unicode prog' -> In w minimize_words -> In w' minimize_words -> cidr_texts F ss -> cidr_texts F ss' ->
  (on_stdout (@main U R T (prog :: w :: ss ++ ss')) = on_stdout (@main U R' T' (prog' :: w' :: ss')) <->
   forall c : addr F, valid c -> covered ss c -> covered ss' c).
Proof. exact c77_inclusion. Qed.
Print Assumptions C77_inclusion.
Example C77_inclusion_ex :
  let out ss := on_stdout (@main no_unicode debug_env plain (lit "ripcalc" :: lit "-m" :: ss)) in
  out [lit "10.1.2.3/25"; lit "10.1.2.192/26"; lit "10.1.2.0/25"; lit "10.1.2.128/26"] =
  out [lit "10.1.2.192/26"; lit "10.1.2.0/25"; lit "10.1.2.128/26"].
Proof. ex. Qed.

(** *** Listing *)
Theorem C77_enumerate : forall (U : Unicode) (R R' : Rust) (T T' : Terminal) (F F' : family) (prog prog' w w' s s' : str),
  unicode prog -> unicode prog' -> In w enumerate_words -> In w' enumerate_words -> of_family F s -> of_family F' s' ->
  (on_stdout (@main U R T [prog; w; s]) = on_stdout (@main U R' T' [prog'; w'; s']) <-> same_network s s').
Proof. exact c77_enumerate. Qed.
Print Assumptions C77_enumerate.
Example C77_enumerate_ex :
  on_stdout (@main no_unicode debug_env plain [lit "ripcalc"; lit "-e"; lit "10.1.2.3/30"]) =
  on_stdout (@main no_unicode debug_env plain [lit "ripcalc"; lit "-e"; lit "10.1.2.0/-0.0.0.3"]).
Proof. ex. Qed.

(** *** Ranges *)
Theorem C77_derange : forall (U : Unicode) (R R' : Rust) (T T' : Terminal) (F F' : family) (prog prog' w w' s t s' t' : str) (lo hi lo' hi' : N),
  unicode prog -> unicode prog' -> In w derange_words -> In w' derange_words ->
  spans s t F lo hi -> spans s' t' F' lo' hi' -> hi <> top F -> hi' <> top F' ->
  (on_stdout (@main U R T [prog; w; s; t]) = on_stdout (@main U R' T' [prog'; w'; s'; t']) <->
   F = F' /\ lo = lo' /\ hi = hi').
Proof. exact c77_derange. Qed.
Print Assumptions C77_derange.
Example C77_derange_ex :
  on_stdout (@main no_unicode debug_env plain [lit "ripcalc"; lit "-d"; lit "10.1.2.3"; lit "10.1.2.8"]) =
  on_stdout (@main no_unicode debug_env plain [lit "ripcalc"; lit "-d"; lit "10.1.2.8"; lit "10.1.2.03"]).
Proof. ex. Qed.

(** *** Resizing *)
Theorem C77_resize : forall (U : Unicode) (R R' : Rust) (T : Terminal) (F F' : family) (prog prog' w w' s t s' t' : str) (m : addr F) (m' : addr F'),
  unicode prog -> unicode prog' -> In w resize_words -> In w' resize_words ->
  of_family F s -> of_family F' s' -> mask_text F t m -> mask_text F' t' m' ->
  (on_stdout (@main U R T [prog; w; s; t]) = on_stdout (@main U R' T [prog'; w'; s'; t']) <->
   same_network s s' /\ value m = value m').
Proof. exact c77_resize. Qed.
Print Assumptions C77_resize.
Example C77_resize_ex :
  on_stdout (@main no_unicode debug_env plain [lit "ripcalc"; lit "-r"; lit "10.1.2.3/24"; lit "25"]) =
  on_stdout (@main no_unicode debug_env plain [lit "ripcalc"; lit "-r"; lit "10.1.2.7/24"; lit "255.255.255.128"]).
Proof. ex. Qed.

(** *** Splitting *)
Theorem C77_split : forall (U : Unicode) (R : Rust) (T : Terminal) (F F' : family) (prog prog' w w' s s' : str) (ss ss' : list str) (cs cs' : list Z),
  unicode prog -> unicode prog' -> In w split_words -> In w' split_words ->
  of_family F s -> of_family F' s' -> counts_text ss cs -> counts_text ss' cs' ->
  ended (@main U R T (prog :: w :: s :: ss)) = Ret 0%Z -> ended (@main U R T (prog' :: w' :: s' :: ss')) = Ret 0%Z ->
  (on_stdout (@main U R T (prog :: w :: s :: ss)) = on_stdout (@main U R T (prog' :: w' :: s' :: ss')) <->
   same_network s s' /\ cs = cs').
Proof. exact c77_split. Qed.
Print Assumptions C77_split.
Example C77_split_ex :
  on_stdout (@main no_unicode debug_env plain [lit "ripcalc"; lit "-s"; lit "10.1.2.3/24"; lit "+1_00"; lit "10"]) =
  on_stdout (@main no_unicode debug_env plain [lit "ripcalc"; lit "-s"; lit "10.1.2.9/255.255.255.0"; lit "100"; lit "010"]).
Proof. ex. Qed.
