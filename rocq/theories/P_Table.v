(** * P_Table: the report is a table (C96) *)
From Verif Require Import RustBase Addr Net Console ShowNet Main Messages Process Spec SpecText SpecIO SpecShow SpecMain SpecProcess SpecTable Demo Pf_Table.

(** ** C96: the report is a table *)
(** How long the texts of addresses and networks can get. *)
Theorem C96_texts : forall (R : Rust) (F : family) (a : addr F) (n : net F),
  valid a -> wf_net n ->
  (List.length (display a) <= longest F)%nat /\
  (List.length (net_display n) <= longest F + 1 + match cidr_prefix n with Some _ => longest_prefix F | None => longest F end)%nat.
Proof. exact c96_texts. Qed.
Print Assumptions C96_texts.
Example C96_texts_ex :
  let len4 (a m : ipv4) := List.length (net_display (@new_with_mask (addr V4) ipv4_ops a m)) in
  let len6 (a m : ipv6) := List.length (@net_display _ (@ipv6_ops debug_env) (@new_with_mask (addr V6) (@ipv6_ops debug_env) a m)) in
  let a4 := ip4 255 255 255 255 in
  let a6 := ip6 0xffff 0xffff 0xffff 0xffff 0xffff 0xffff 0xffff 0xffff in
  len4 a4 a4 = 18%nat /\ len4 a4 (ip4 127 255 255 255) = 31%nat /\
  len6 a6 a6 = 43%nat /\ len6 a6 (ip6 0xefff 0xffff 0xffff 0xffff 0xffff 0xffff 0xffff 0xffff) = 79%nat.
Proof. ex. Qed.

(** On a colour terminal a description consists of rows whose columns line up, a line
    with the number of hosts, and a few remarks. *)
Theorem C96_table : forall (R : Rust) (T : Terminal) (F : family) (n : net F) (a : option (addr F)) (k : N) (es : list event) (r : res unit),
  wf_net n -> (forall x, a = Some x -> valid x) -> count n k ->
  colors_enabled = true -> show_of F n a = (es, r) ->
  let ls := pieces "010" (stdout es) in
  Forall (fun l => tabular F l = true \/ summary F l \/ In l remarks) ls /\
  List.length (filter (tabular F) ls) = rows (match a with Some _ => true | None => false end) k.
Proof. exact c96_table. Qed.
Print Assumptions C96_table.
Example C96_table_ex :
  let n := @new_with_mask (addr V4) ipv4_ops (ip4 255 255 255 255) (ip4 255 255 255 252) in
  map (fun l => (tabular V4 l, List.length l)) (pieces "010" (stdout (fst (@show_of debug_env colourful V4 n (Some (ip4 255 255 255 254)))))) =
    [(true, 67); (true, 67); (true, 67); (false, 2); (true, 67); (true, 67); (true, 67); (true, 67); (false, 50); (false, 0)]%nat.
Proof. ex. Qed.

(** No line of any run is wider than a row for an IPv6 address, but for the colour
    test; without IPv6 none is wider than a row for an IPv4 address. *)
Theorem C96_fits : forall (U : Unicode) (R : Rust) (T : Terminal) (args : list str) (l : list (ascii * pen)) (p : pen),
  seen (on_stdout (main args)) = Some (l, p) ->
  colors_enabled = false \/ (forall prog rest, args <> prog :: lit "--color-test" :: rest) ->
  fits 192 (map fst l) /\ (Forall (fun s => ~ In ":"%char s) (tl args) -> fits 67 (map fst l)).
Proof. exact c96_fits. Qed.
Print Assumptions C96_fits.
Example C96_fits_ex :
  let widest (args : list string) := match seen (on_stdout (@main no_unicode debug_env colourful (map lit args))) with
    | Some (l, _) => fold_right Nat.max 0%nat (map (@List.length ascii) (pieces "010" (map fst l)))
    | None => 0%nat
    end in
  map widest [["ripcalc"; "10.0.0.0/8"]; ["ripcalc"; "10.0.0.0/8"; "::1/8"]; ["ripcalc"; "-s"; "10.0.0.0/24"; "9"];
              ["ripcalc"; "--color-test"]; ["ripcalc"; "-e"; "::a/127"]]%string = [67; 192; 67; 320; 3]%nat.
Proof. ex. Qed.
